(** C117 to C119: wildcards and access modes. *)
From Coq Require Import Lia.
From Verif Require Import Glob_spec Glob_proofs.

(** C117.  A text matches a pattern exactly if it can be cut into pieces, one for each element of the pattern, up to the first NUL of each. *)
Theorem C117_language bracket pattern text p u l : shortens bracket -> read_as pattern p -> read_as text u -> consists_of bracket p l ->
  match_pattern bracket pattern text = true <-> in_language l u.
Proof. exact (read_as_lemma bracket pattern text p u l). Qed.
Print Assumptions C117_language.
(** Every text is read as some text, and every pattern consists of some elements, whatever its characters. *)
Theorem C117_total bracket pattern : shortens bracket -> exists p l, read_as pattern p /\ consists_of bracket p l.
Proof. exact (read_total bracket pattern). Qed.
Print Assumptions C117_total.
Theorem C117_all bracket text : shortens bracket -> match_pattern bracket (s "*") text = true.
Proof. exact (star_lemma bracket text). Qed.
Print Assumptions C117_all.
Example C117_nonvacuous : shortens simple_bracket /\ match_pattern simple_bracket (s "rt/*_[a-c]?*[!x]") (s "rt/my_topic_b_1/y") = true /\
  match_pattern simple_bracket (s "rt/*_[a-c]?*[!x]") (s "rt/my_topic_b_1/x") = false /\ match_pattern simple_bracket (s "a*b*c") (s "aXbYbZc") = true /\
  match_pattern simple_bracket (s "*") (s "/.hidden") = true /\ match_pattern simple_bracket (s "[ab") (s "[ab") = true.
Proof. split; [exact simple_shortens|]. vm_compute. repeat split. Qed.

(** C118.  For every text there is a pattern that matches it and no other one, ... *)
Theorem C118_quoted bracket t u : shortens bracket -> quotes_special bracket -> without_nul t -> without_nul u ->
  match_pattern bracket (quoted t) u = true <-> u = t.
Proof. exact (quoted_lemma bracket t u). Qed.
Print Assumptions C118_quoted.
(** ... which is the text itself if it has none of the characters '*', '?' and '['.  Missing: texts with them or with a NUL; see the refutations. *)
Theorem C118_partial bracket t u : shortens bracket -> quotes_special bracket -> without_nul t -> without_nul u ->
  forallb (fun c => negb (special c)) t = true -> match_pattern bracket t u = true <-> u = t.
Proof. intros Sh Q Nt Nu P. pose proof (quoted_lemma bracket t u Sh Q Nt Nu) as H. now rewrite (plain_quoted t P) in H. Qed.
Print Assumptions C118_partial.
Example C118_nonvacuous : quotes_special simple_bracket /\ without_nul (s "what?[1]*\") /\ quoted (s "what?[1]*\") = s "what[?][[]1][*]\" /\
  match_pattern simple_bracket (quoted (s "what?[1]*\")) (s "what?[1]*\") = true.
Proof.
  split; [exact simple_quotes|]. split; [|split; reflexivity]. intros H. cbn in H. repeat (destruct H as [H|H]; [discriminate H|]). exact H.
Qed.
(** A text does not always match itself, ... *)
Theorem C118_itself_refuted : exists t, without_nul t /\ match_pattern simple_bracket t t = false.
Proof. exists (s "topic[1]"). split; [|vm_compute; reflexivity]. intros H. cbn in H. repeat (destruct H as [H|H]; [discriminate H|]). exact H. Qed.
Print Assumptions C118_itself_refuted.
(** ... a backslash does not quote, ... *)
Theorem C118_backslash_refuted : match_pattern simple_bracket (s "\*") (s "*") = false /\ match_pattern simple_bracket (s "\*") (s "\anything") = true.
Proof. vm_compute. now split. Qed.
Print Assumptions C118_backslash_refuted.
(** ... and what follows a NUL is not looked at. *)
Theorem C118_nul_refuted bracket t u v w : match_pattern bracket (t ++ "000"%char :: v) (u ++ "000"%char :: w) = match_pattern bracket t u.
Proof.
  assert (C : forall a b, c_str (a ++ "000"%char :: b) = c_str a).
  { induction a as [|c a IH]; intros b; [reflexivity|]. cbn [c_str app]. destruct (Ascii.eqb c "000"); [reflexivity|]. f_equal. apply IH. }
  unfold match_pattern. now rewrite !C.
Qed.
Print Assumptions C118_nul_refuted.

(** C119.  Access modes are sets: | gives a mode with what is in one or the other, & one with what is in both, which is the second one exactly if that is part of the first. *)
Theorem C119_modes a b k : (a < 8 -> b < 8 -> mode_or a b < 8 /\ mode_and a b < 8 /\
  (N.testbit (mode_or a b) k = true <-> N.testbit a k = true \/ N.testbit b k = true) /\ (N.testbit (mode_and a b) k = true <-> N.testbit a k = true /\ N.testbit b k = true) /\
  (mode_and a b = b <-> forall k, N.testbit b k = true -> N.testbit a k = true))%N.
Proof. exact (modes_lemma a b k). Qed.
Print Assumptions C119_modes.
(** None of reading, writing and executing is part of the others together. *)
Theorem C119_apart x y z : In (x, y, z) [(read, write, exec); (write, exec, read); (exec, read, write)] -> mode_and (mode_or y z) x <> x /\ mode_and (mode_or y z) x = exist.
Proof. intros [E|[E|[E|[]]]]; injection E as <- <- <-; split; (discriminate || reflexivity). Qed.
Print Assumptions C119_apart.
Example C119_nonvacuous : mode_or read (mode_or write exec) = 7%N /\ mode_and (mode_or read exec) write = exist.
Proof. split; reflexivity. Qed.
