(** C56: identifiers of tasks. *)
From Verif Require Import TaskId_model TaskId_spec TaskId_proofs.
From Coq Require Import NArith.
Local Open Scope N_scope.

(** no identifier is returned twice, up to exhaustion of the type *)
Theorem C56_unique : forall n ts s, id_run (id_init n) ts = Some s -> N.of_nat (calls (id_events s)) <= 2 ^ 32 -> NoDup (returned (id_events s)).
Proof. exact unique_lemma. Qed.
Print Assumptions C56_unique.

Example C56_unique_nonvacuous : exists s, id_run (id_init 2) [0; 1; 1; 0; 0; 1; 1; 1; 1]%nat = Some s /\ N.of_nat (calls (id_events s)) <= 2 ^ 32 /\
  returned (id_events s) = [2; 0; 1].
Proof. eexists. split; [reflexivity|]. split; [discriminate|reflexivity]. Qed.

(** ... and it is the atomic operation that makes it so: the calls are as if made one at a time *)
Theorem C56_linear : forall n ts s, id_run (id_init n) ts = Some s -> linearizable next_id 0 (id_events s).
Proof. exact linear_lemma. Qed.
Print Assumptions C56_linear.

(** the bound is the best possible: after 2^32 calls identifiers are repeated *)
Theorem C56_exhausted : exists ts s, id_run (id_init 1) ts = Some s /\ N.of_nat (calls (id_events s)) = 2 ^ 32 + 1 /\ ~ NoDup (returned (id_events s)).
Proof. exact exhausted_refute. Qed.
Print Assumptions C56_exhausted.
