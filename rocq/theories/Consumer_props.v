(** Theorems about producers and consumers. *)
From Coq Require Import NArith.
From Verif Require Import Consumer_model Consumer_spec Consumer_proofs.

(** C29 *)
Theorem C29_consumed_in_order : forall (T : Type) v en n (s : cstate T), creachable (cinit v en n) s ->
  prefix (consumed s) (produced s) /\ produced s = consumed s ++ foreground s ++ background s.
Proof. exact prefix_lemma. Qed.
Print Assumptions C29_consumed_in_order.

(** two elements are produced, the handler is disabled while a consumer waits for a third one,
    is enabled again and another one is produced *)
Definition produce (t : nat) (x : nat) : list (clabel nat) := [CCall t (Produce x); CQueue t; CRun t 1].
Definition consume (t : nat) : list (clabel nat) :=
  CCall t (Consume 0) :: repeat (CRun t 0) 6 ++ repeat (CQueue t) 6.
Definition consume_fast (t : nat) : list (clabel nat) :=
  CCall t (Consume 0) :: repeat (CRun t 0) 6 ++ repeat (CQueue t) 5.

Example C29_consumed_in_order_nonvacuous :
  option_map (fun s => (consumed s, produced s, results s))
    (csteps (cinit 0%N true 2) (produce 0 7 ++ produce 0 8 ++ consume 1 ++ produce 0 9 ++ consume_fast 1 ++ consume 0)) =
  Some ([7; 8; 9], [7; 8; 9], [RValue 0 9; RValue 1 8; RValue 1 7]).
Proof. vm_compute. reflexivity. Qed.

Example C29_disabled :
  option_map (fun s => (consumed s, produced s, results s))
    (csteps (cinit 0%N true 2) (produce 0 7 ++ consume 1 ++ [CCall 1 (Consume 0)] ++ repeat (CRun 1 0) 3 ++
       [CCall 0 (Switch Kdisable)] ++ repeat (CRun 0 0) 4 ++ repeat (CRun 1 0) 5 ++ produce 0 8)) =
  Some ([7], [7; 8], [RThrow 1 Disabled; RValue 1 7]).
Proof. vm_compute. reflexivity. Qed.

(** C30.  What is missing: handlers created with a positive value. *)
Theorem C30_never_empty_partial : forall (T : Type) en n (s : cstate T), creachable (cinit 0%N en n) s ->
  forall r, In r (results s) -> match r with RInconsistent _ | RUndefined _ => False | _ => True end.
Proof. exact never_empty_lemma. Qed.
Print Assumptions C30_never_empty_partial.

Theorem C30_positive_value_refuted : forall T : Type,
  exists ls (s : cstate T), csteps (cinit 1%N true 1) ls = Some s /\ In (RInconsistent 0) (results s).
Proof. exact inconsistent_lemma. Qed.
Print Assumptions C30_positive_value_refuted.

(** C62: the count is right modulo 2^32 ... *)
Theorem C62_elements_ready_partial : forall (T : Type) en n (s : cstate T), creachable (cinit 0%N en n) s -> quiet s ->
  value (handler s) = (N.of_nat (length (produced s) - length (consumed s)) mod 2 ^ 32)%N.
Proof. exact quiet_lemma. Qed.
Print Assumptions C62_elements_ready_partial.

(** ... so it says that nothing is ready when 2^32 elements are. *)
Theorem C62_overflow_refuted : forall (T : Type) (x : T), exists ls (s : cstate T), csteps (cinit 0%N true 1) ls = Some s /\ quiet s /\
  N.of_nat (length (produced s)) = (2 ^ 32)%N /\ consumed s = [] /\ value (handler s) = 0%N.
Proof. exact overflow_lemma. Qed.
Print Assumptions C62_overflow_refuted.

Example C62_elements_ready_nonvacuous :
  option_map (fun s => (length (produced s), length (consumed s), value (handler s), stages s))
    (csteps (cinit 0%N true 2) (produce 0 7 ++ produce 0 8 ++ consume 1 ++ produce 0 9)) = Some (3, 1, 2%N, [SIdle; SIdle]).
Proof. vm_compute. reflexivity. Qed.
