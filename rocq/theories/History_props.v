(** Properties C18, C19. *)
From Coq Require Import ZArith.
From Verif Require Import Str Outcome History_model History_spec History_proofs.
Local Open Scope Z_scope.

(** *** C18 *)

(** Partial: a sequence of calls is unsafe exactly when [get_next_command] is called
    twice before the first non-empty command is added.  (Fewer than 2^63 calls.) *)
Theorem C18_memory_safe_partial : forall ops, Z.of_nat (length ops) < 2 ^ 63 ->
  (hist_run history_init ops = UB <-> (2 <= early_nexts ops)%nat).
Proof. exact history_safe_iff. Qed.
Print Assumptions C18_memory_safe_partial.

Example C18_memory_safe_partial_nonvacuous :
  early_nexts [HNext; HPrev; HAdd (s "a"); HNext; HNext; HNext] = 1%nat /\
  hist_run history_init [HNext; HPrev; HAdd (s "a"); HNext; HNext; HNext] =
  Ret [Some []; Some []; None; Some []; Some []; Some []].
Proof. split; reflexivity. Qed.

(** The full claim fails. *)
Theorem C18_memory_safe_refuted : exists ops, hist_run history_init ops = UB.
Proof. exact history_unsafe_lemma. Qed.
Print Assumptions C18_memory_safe_refuted.

(** *** C19 *)

(** Every safe sequence of calls returns what a list with a cursor returns. *)
Theorem C19_list_with_cursor : forall ops, Z.of_nat (length ops) < 2 ^ 63 -> (early_nexts ops < 2)%nat ->
  hist_run history_init ops = Ret (browser_run browser_init ops).
Proof. exact history_list_lemma. Qed.
Print Assumptions C19_list_with_cursor.

Example C19_list_with_cursor_nonvacuous :
  hist_run history_init [HAdd (s "a"); HAdd []; HAdd (s "b"); HPrev; HPrev; HPrev; HNext; HNext; HNext] =
  Ret [None; None; None; Some (s "b"); Some (s "a"); Some []; Some (s "b"); Some []; Some []].
Proof. reflexivity. Qed.

(** In that reference the commands keep their order and only adding changes them. *)
Theorem C19_contents : forall b o,
  let contents b := rev (older b) ++ newer b in
  contents (snd (browser_step b o)) =
  match o with HAdd (c0 :: c) => contents b ++ [c0 :: c] | _ => contents b end.
Proof. exact browser_contents. Qed.
Print Assumptions C19_contents.
