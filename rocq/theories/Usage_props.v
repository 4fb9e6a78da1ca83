(** C122 to C125 and C146: the usage text that printUsage writes. *)
From Verif Require Import Usage_spec UsageIter_proofs UsagePrint_proofs UsageFit_proofs UsageUtf_proofs UsageLines_proofs.
From Coq Require Import Lia.
Local Open Scope Z_scope.

Definition says (t : str) : entry := {| shortopt := true; help := Some t |}.
Definition break : entry := {| shortopt := true; help := None |}.
Lemma proper_says u : forallb (fun e => shortopt e && match help e with Some h => forallb (fun c => negb (Ascii.eqb c NUL || Ascii.eqb c byte_FF)) h | None => true end) u = true -> proper u.
Proof.
  intros H e I. apply (proj1 (forallb_forall _ _) H) in I. apply andb_prop in I. destruct I as (A & B). split; [exact A|]. intros h E. rewrite E in B. pose proof (proj1 (forallb_forall _ _) B) as K. split; intro Q; specialize (K _ Q); discriminate.
Qed.
Local Notation tab := [TAB] (only parsing).

(** C122.  Printing the usage ends, without undefined behaviour.  Missing: see the refutations. *)
Theorem C122_returns_partial u more width min_percent own_percent : proper u -> -214748 <= min_percent <= 214748 -> -214748 <= own_percent <= 214748 ->
  exists out, print_usage (u ++ the_end :: more) width min_percent own_percent = Ret out.
Proof. intros P A B. destruct (usage_prints u more width min_percent own_percent P A B) as (xss & E & _). exists (concat (concat xss)). exact E. Qed.
Print Assumptions C122_returns_partial.
Example C122_nonvacuous : proper [says (s "-h" ++ tab ++ s "shows this help"); break; says (s "Examples:"); says []] /\
  exists x, print_usage ([says (s "-h" ++ tab ++ s "shows this help"); break; says (s "Examples:"); says []] ++ [the_end]) (-3) 50 75 = Ret x /\ x <> [].
Proof. split; [apply proper_says; reflexivity|]. eexists. split; [vm_compute; reflexivity|discriminate]. Qed.
(** A byte 0xFF in a text is undefined behaviour ([__builtin_clz(0)]), ... *)
Theorem C122_byte_refuted : exists u, print_usage (u ++ [the_end]) 80 50 75 = UB.
Proof. exists [says [byte_FF]]. vm_compute. reflexivity. Qed.
Print Assumptions C122_byte_refuted.
(** ... an array without its last element is read beyond its end, ... *)
Theorem C122_end_refuted : exists u, proper u /\ print_usage u 80 50 75 = UB.
Proof. exists [says (s "-h")]. split; [apply proper_says; reflexivity|vm_compute; reflexivity]. Qed.
Print Assumptions C122_end_refuted.
(** ... large percentages overflow, ... *)
Theorem C122_percent_refuted : exists u p, proper u /\ print_usage (u ++ [the_end]) 10000 p 75 = UB.
Proof. exists [says (s "-h")], 214749. split; [apply proper_says; reflexivity|vm_compute; reflexivity]. Qed.
Print Assumptions C122_percent_refuted.
(** ... and an entry with a text but without short options is printed again and again, for ever. *)
Definition without_shortopt : list entry := [{| shortopt := false; help := Some (s "-h") |}; the_end].
Theorem C122_endless_refuted : forall fuel, print_tables fuel 80 40 60 (iter_new without_shortopt) = OutOfFuel.
Proof.
  set (j := {| tablestart := without_shortopt; rowdesc := Some without_shortopt; rowstart := Some (s "-h"); ptr := Some []; col := 0; len := 0; screenlen := 0; max_line := 0; line := 0; target := 1; hit := true |}).
  assert (Loop : forall fuel i, table_rows (table_fuel (restart_table i)) (restart_table (restart_table i)) = Ret ([parts_of NUL (row_of (s "-h"))], j) -> next_table i = Ret (true, restart_table i) -> print_tables (S fuel) 80 40 60 i = obind (print_tables fuel 80 40 60 j) (fun ts => Ret (s "-h" ++ [NL] ++ ts))).
  { intros fuel i A B. cbn [print_tables]. rewrite B. cbn [obind fst snd]. rewrite A. cbn [obind fst snd]. replace (print_table 80 40 60 [parts_of NUL (row_of (s "-h"))]) with (Ret (s "-h" ++ [NL])) by (vm_compute; reflexivity). cbn [obind]. destruct (print_tables fuel 80 40 60 j); reflexivity. }
  assert (Again : forall fuel, print_tables fuel 80 40 60 j = OutOfFuel) by (induction fuel as [|f IH]; [reflexivity|]; rewrite Loop by (vm_compute; reflexivity); rewrite IH; reflexivity).
  intros [|f]; [reflexivity|]. rewrite Loop by (vm_compute; reflexivity). rewrite Again. reflexivity.
Qed.
Print Assumptions C122_endless_refuted.

(** C123.  The text is that of the rows of the tables in their order.  Each row is printed in whole lines; but for spaces and
    line ends they have the characters of its first eight columns, those of each column in their order, and no others.
    Missing: further columns, see the refutation. *)
Theorem C123_rows_partial u more width min_percent own_percent : proper u -> -214748 <= min_percent <= 214748 -> -214748 <= own_percent <= 214748 ->
  exists outs, print_usage (u ++ the_end :: more) width min_percent own_percent = Ret (concat (concat outs)) /\ Forall2 (Forall2 prints) (tables u) outs.
Proof. exact (usage_prints u more width min_percent own_percent). Qed.
Print Assumptions C123_rows_partial.
(** So each character is printed as often as it occurs. *)
Theorem C123_count_partial r x c : prints r x -> (length r <= 8)%nat -> Ascii.eqb c " " = false -> Ascii.eqb c NL = false -> occurrences c x = occurrences c (concat (concat r)).
Proof. intros H L A B. exact (prints_count c r x H A B L). Qed.
Print Assumptions C123_count_partial.
Example C123_nonvacuous :
  let u := [says (s "-h" ++ tab ++ s "shows this help and leaves"); break; says (s "see the manual")] in
  proper u /\ tables u = [[[[s "-h"]; [s "shows this help and leaves"]]]; [[[s "see the manual"]]]] /\
  print_usage (u ++ [the_end]) 16 50 75 = Ret (s "-hshows this" ++ [NL] ++ s "  help and" ++ [NL] ++ s "  leaves" ++ [NL] ++ s "see the manual" ++ [NL]).
Proof. split; [apply proper_says; reflexivity|]. split; vm_compute; reflexivity. Qed.
(** The columns after the eighth are dropped. *)
Definition nine : str := s "a" ++ tab ++ s "b" ++ tab ++ s "c" ++ tab ++ s "d" ++ tab ++ s "e" ++ tab ++ s "f" ++ tab ++ s "g" ++ tab ++ s "h" ++ tab ++ s "i".
Theorem C123_nine_refuted : exists u out, proper u /\ print_usage (u ++ [the_end]) 80 50 75 = Ret out /\ occurrences "i" (flat_map (fun t => concat (concat (concat t))) (tables u)) = 1%nat /\ occurrences "i" out = 0%nat.
Proof. exists [says nine]. eexists. split; [apply proper_says; reflexivity|]. split; [vm_compute; reflexivity|]. split; vm_compute; reflexivity. Qed.
Print Assumptions C123_nine_refuted.

(** C124.  No line is wider than asked for, if the columns before the last one leave two columns on the screen for it (and so
    does its own line, when it has one).  Missing: the other widths, see the refutations. *)
Theorem C124_width_partial u more width min_percent own_percent : proper u -> -214748 <= min_percent <= 214748 ->
  (forall t, In t (tables u) -> column_start t (last_column t) + 2 <= used width) -> 0 <= own_percent <= 100 -> 2 <= (used width * own_percent + 50) / 100 ->
  exists out, print_usage (u ++ the_end :: more) width min_percent own_percent = Ret out /\ Forall (fun l => columns l <= used width) (split_on NL out).
Proof. exact (usage_within u more width min_percent own_percent). Qed.
Print Assumptions C124_width_partial.
Definition story : list entry := [says (s "--output FILE" ++ tab ++ s "writes to the file, which is overwritten"); says (s "A title that is not a part of the table")].
Example C124_nonvacuous : proper story /\ (forall t, In t (tables story) -> column_start t (last_column t) + 2 <= used 20) /\ 2 <= (used 20 * 75 + 50) / 100 /\
  print_usage (story ++ [the_end]) 20 50 75 = Ret (s "--output FILE" ++ [NL] ++ s "     writes to the" ++ [NL] ++ s "     file, which is" ++ [NL] ++ s "     overwritten" ++ [NL] ++ s "A title that is not" ++ [NL] ++ s "a part of the table" ++ [NL]).
Proof.
  split; [apply proper_says; reflexivity|]. split; [intros t [<-|[]]; vm_compute; discriminate|]. split; [vm_compute; discriminate|]. vm_compute. reflexivity.
Qed.
(** A cell before the last column is not wrapped, ... *)
Theorem C124_cell_refuted : exists u out, proper u /\ print_usage (u ++ [the_end]) 20 50 75 = Ret out /\ exists l, In l (split_on NL out) /\ columns l = 41.
Proof. exists [says (repeat "x"%char 41 ++ tab ++ s "y")]. eexists. split; [apply proper_says; reflexivity|]. split; [vm_compute; reflexivity|]. exists (repeat "x"%char 41). split; [vm_compute; left; reflexivity|vm_compute; reflexivity]. Qed.
Print Assumptions C124_cell_refuted.
(** ... and no line is narrower than two columns. *)
Theorem C124_one_refuted : exists u out, proper u /\ print_usage (u ++ [the_end]) 1 50 75 = Ret out /\ exists l, In l (split_on NL out) /\ columns l = 2.
Proof. exists [says (s "abc")]. eexists. split; [apply proper_says; reflexivity|]. split; [vm_compute; reflexivity|]. exists (s "ab"). split; [vm_compute; left; reflexivity|reflexivity]. Qed.
Print Assumptions C124_one_refuted.

(** The columns that are counted are those of the characters, for texts in UTF-8: two for the characters documented to be wide, one for the others. *)
Theorem C124_columns l : Forall code_point l -> columns (flat_map utf8 l) = fold_right Z.add 0 (map screen_width l).
Proof. exact (cols_utf8 l). Qed.
Print Assumptions C124_columns.
Definition letters : list N := [0x4E2D; 0x1105; 0xE9; 0x61; 0x303F; 0x1F600; 0x10FFFF; 0x7FF; 0x800; 0xFFFF]%N.
Example C124_columns_nonvacuous : Forall code_point letters /\ map screen_width letters = [2; 2; 1; 1; 1; 2; 2; 1; 1; 1] /\ length (flat_map utf8 letters) = 28%nat /\ flat_map utf8 [0x20AC]%N = ["226"; "130"; "172"]%char.
Proof. split; [repeat (constructor; [vm_compute; discriminate|]); constructor|]. split; [reflexivity|]. split; reflexivity. Qed.
(** so no line has more characters than asked for *)
Theorem C124_characters_partial u more width min_percent own_percent : proper u -> -214748 <= min_percent <= 214748 -> (forall e h, In e u -> help e = Some h -> is_utf8 h) ->
  (forall t, In t (tables u) -> column_start t (last_column t) + 2 <= used width) -> 0 <= own_percent <= 100 -> 2 <= (used width * own_percent + 50) / 100 ->
  exists out, print_usage (u ++ the_end :: more) width min_percent own_percent = Ret out /\
    Forall (fun l => exists cs, Forall code_point cs /\ l = flat_map utf8 cs /\ fold_right Z.add 0 (map screen_width cs) <= used width) (split_on NL out).
Proof. exact (usage_characters u more width min_percent own_percent). Qed.
Print Assumptions C124_characters_partial.

(** C146.  No character is split: if the texts are in UTF-8, so is the usage text, and each of its lines. *)
Theorem C146_utf8 u more width min_percent own_percent : proper u -> -214748 <= min_percent <= 214748 -> -214748 <= own_percent <= 214748 -> (forall e h, In e u -> help e = Some h -> is_utf8 h) ->
  exists out, print_usage (u ++ the_end :: more) width min_percent own_percent = Ret out /\ is_utf8 out /\ Forall is_utf8 (split_on NL out).
Proof.
  intros P A B U. destruct (usage_prints u more width min_percent own_percent P A B) as (xss & E & _). exists (concat (concat xss)). split; [exact E|]. exact (usage_utf8 u more width min_percent own_percent P A B U _ E).
Qed.
Print Assumptions C146_utf8.
Definition wide_text : list entry := [says (s "-h" ++ tab ++ flat_map utf8 [0x4E2D; 0x6587; 0xE9; 0x4E2D; 0x6587; 0x4E2D]%N)].
Example C146_nonvacuous : proper wide_text /\ (forall e h, In e wide_text -> help e = Some h -> is_utf8 h) /\
  print_usage (wide_text ++ [the_end]) 8 10 75 = Ret (s "-h" ++ flat_map utf8 [0x4E2D; 0x6587; 0xE9]%N ++ [NL] ++ s "  " ++ flat_map utf8 [0x4E2D; 0x6587; 0x4E2D]%N ++ [NL]).
Proof.
  split; [apply proper_says; vm_compute; reflexivity|]. split.
  - intros e h [<-|[]] E. injection E as <-. exists [0x2D; 0x68; 9; 0x4E2D; 0x6587; 0xE9; 0x4E2D; 0x6587; 0x4E2D]%N. split; [repeat (constructor; [vm_compute; discriminate|]); constructor|vm_compute; reflexivity].
  - vm_compute. reflexivity.
Qed.

(** C125.  If everything fits, each row is one line with its cells in aligned columns.  Missing: rows with several lines and
    tables whose last column is empty, see the refutation. *)
Theorem C125_layout_partial u more width min_percent own_percent : proper u -> -214748 <= min_percent <= 214748 -> -214748 <= own_percent <= 214748 ->
  (forall t, In t (tables u) -> fits (used width) t) ->
  print_usage (u ++ the_end :: more) width min_percent own_percent = Ret (flat_map (fun t => flat_map (fun r => aligned t 0 r ++ [NL]) t) (tables u)).
Proof. exact (usage_exact u more width min_percent own_percent). Qed.
Print Assumptions C125_layout_partial.
Definition manual : list entry := [says (s "-h" ++ tab ++ s "--help" ++ tab ++ s "  shows this help"); says (s "A title"); says (s "-a" ++ tab ++ tab ++ s "  all"); says (s "-v" ++ tab ++ s "--vt")].
Example C125_nonvacuous : proper manual /\ (forall t, In t (tables manual) -> fits (used 0) t) /\
  print_usage (manual ++ [the_end]) 0 50 75 = Ret (s "-h--help  shows this help" ++ [NL] ++ s "A title" ++ [NL] ++ s "-a        all" ++ [NL] ++ s "-v--vt" ++ [NL]).
Proof.
  split; [apply proper_says; reflexivity|]. split; [|vm_compute; reflexivity]. intros t [<-|[]]. split; [|vm_compute; intuition congruence].
  intros r I. vm_compute in I. repeat (destruct I as [<-|I]; [split; [intros cell K; vm_compute in K; repeat (destruct K as [<-|K]; [reflexivity|]); destruct K|split; [cbn; lia|vm_compute; intuition congruence]]|]). destruct I.
Qed.
(** A last column that is empty in all rows adds lines of spaces. *)
Theorem C125_empty_refuted : exists u out, proper u /\ print_usage (u ++ [the_end]) 10 50 75 = Ret out /\ u = [says (s "abcdefgh" ++ tab)] /\ split_on NL out = [s "abcdefgh"; s "  "; []].
Proof. exists [says (s "abcdefgh" ++ tab)]. eexists. split; [apply proper_says; reflexivity|]. split; [vm_compute; reflexivity|]. split; reflexivity. Qed.
Print Assumptions C125_empty_refuted.
(** After a cell that does not fit the next one starts a line, and so does the one after it, although it would fit there. *)
Theorem C125_break_refuted : exists u out, proper u /\ u = [says (repeat "x"%char 41 ++ tab ++ s "y" ++ tab ++ s "z")] /\ print_usage (u ++ [the_end]) 20 50 75 = Ret out /\
  split_on NL out = [repeat "x"%char 41; s "y"; s " z"; []].
Proof. eexists. eexists. split; [|split; [reflexivity|]; split; [vm_compute; reflexivity|vm_compute; reflexivity]]. apply proper_says. reflexivity. Qed.
Print Assumptions C125_break_refuted.
