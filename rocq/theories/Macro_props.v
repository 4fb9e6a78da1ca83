(** C129: the macros MAX and MIN. *)
From Coq Require Import List ZArith.
From Verif Require Import Macro_model Macro_spec Macro_proofs.

(** Of arguments without effects whose operators bind tighter than <, MAX and MIN give the maximum and
    the minimum, if nothing else is in the expression, *)
Theorem C129_max_partial : forall x y ex ey, reads additive x ex -> reads additive y ey -> pure ex -> pure ey ->
  means (macro_max x y) (fun st => Z.max (value ex st) (value ey st)) /\ means (macro_min x y) (fun st => Z.min (value ex st) (value ey st)).
Proof. exact max_lemma. Qed.
Print Assumptions C129_max_partial.

(** or if their use is in parentheses; so may be the arguments, whatever they are. *)
Theorem C129_parentheses : forall ts e k, reads conditional ts e -> k <= 4 -> reads k ([TOpen] ++ ts ++ [TClose]) e.
Proof. exact parens_lemma. Qed.
Print Assumptions C129_parentheses.

(** tokens have one meaning *)
Theorem C129_one_meaning : forall k ts e e', reads k ts e -> reads k ts e' -> e = e'.
Proof. exact reads_unique. Qed.
Print Assumptions C129_one_meaning.

(** What is added after a use is only added to the first argument, and what is added before it is compared too. *)
Theorem C129_added_after : forall x y z ex ey ez, reads additive x ex -> reads additive y ey -> reads additive (x ++ [TPlus] ++ z) ez ->
  reads conditional (macro_max x y ++ [TPlus] ++ z) (ECond (EBin TLt ex ey) ey ez).
Proof. exact after_lemma. Qed.
Print Assumptions C129_added_after.
Theorem C129_added_before : forall x y z ex ey ez, reads additive x ex -> reads additive y ey -> reads additive (z ++ [TPlus] ++ x) ez ->
  reads conditional (z ++ [TPlus] ++ macro_max x y) (ECond (EBin TLt ez ey) ey ex).
Proof. exact before_lemma. Qed.
Print Assumptions C129_added_before.

(** An argument that is the maximum is evaluated twice. *)
Theorem C129_twice : forall x y ex ey st, reads additive x ex -> reads additive y ey -> pure ey -> (value ey (after ex st) <= value ex st)%Z ->
  exists e, reads conditional (macro_max x y) e /\ eval e st = eval ex (after ex st).
Proof. exact twice_lemma. Qed.
Print Assumptions C129_twice.

Ltac read := match goal with |- reads _ _ _ => exists 20; vm_compute; reflexivity end.

(** MAX(1, 2) + 10 is 2, *)
Theorem C129_sum_refuted : ~ means (macro_max [TNum 1] [TNum 2] ++ [TPlus; TNum 10]) (fun _ => 12%Z) /\ means (macro_max [TNum 1] [TNum 2] ++ [TPlus; TNum 10]) (fun _ => 2%Z).
Proof.
  assert (R : reads conditional (macro_max [TNum 1] [TNum 2] ++ [TPlus; TNum 10]) (ECond (EBin TLt (ENum 1) (ENum 2)) (ENum 2) (EBin TPlus (ENum 1) (ENum 10)))) by read.
  split; [apply (not_means _ _ _ (fun _ => 0%Z) R); vm_compute; discriminate|]. eexists. split; [exact R|reflexivity].
Qed.
Print Assumptions C129_sum_refuted.

(** MAX(3, MAX(1, 2)) is 2, *)
Theorem C129_nested_refuted : exists e, reads conditional (macro_max [TNum 3] (macro_max [TNum 1] [TNum 2])) e /\ forall st, eval e st = (2%Z, st).
Proof. eexists. split; [read|reflexivity]. Qed.
Print Assumptions C129_nested_refuted.

(** and MAX(i++, j) with i = 5 and j = 0 is 6 and leaves 7 in i. *)
Theorem C129_effects_refuted : exists e, reads conditional (macro_max [TVar 0; TIncr] [TVar 1]) e /\
  forall st, st 0 = 5%Z -> st 1 = 0%Z -> fst (eval e st) = 6%Z /\ snd (eval e st) 0 = 7%Z.
Proof. eexists. split; [read|]. intros st H0 H1. cbn. rewrite H0, H1. cbn. split; reflexivity. Qed.
Print Assumptions C129_effects_refuted.

(** the use in Tree.ipp:98, and MAX(a + 1, b * 2) *)
Example C129_nonvacuous : reads additive [TVar 0] (EVar 0) /\
  reads additive [TVar 0; TPlus; TNum 1] (EBin TPlus (EVar 0) (ENum 1)) /\ reads additive [TVar 1; TTimes; TNum 2] (EBin TTimes (EVar 1) (ENum 2)) /\
  reads conditional (macro_max [TVar 0; TPlus; TNum 1] [TVar 1; TTimes; TNum 2])
    (ECond (EBin TLt (EBin TPlus (EVar 0) (ENum 1)) (EBin TTimes (EVar 1) (ENum 2))) (EBin TTimes (EVar 1) (ENum 2)) (EBin TPlus (EVar 0) (ENum 1))).
Proof. repeat split; read. Qed.
