(** C69: disabling a thread pool waits for its threads. *)
From Coq Require Import NArith List Permutation.
From Verif Require Import Pool_model Pool_spec Pool_proofs PoolStop_spec PoolStop_proofs.
Import ListNotations.

(** one thread enables and disables: when disable returns, no thread of the pool is alive, all
    tasks that started have ended, and none starts until enable is called *)
Theorem C69_disable_waits_partial : forall n m c s l s' t, preachable (controlled_by c) (pinit n m) s -> controlled_by c l -> pstep s l = Some s' ->
  events s' = EvDisabled t :: events s ->
  all_ended s' /\ Permutation (started s') (finished s') /\
  forall ls s'', Forall no_enable ls -> psteps s' ls = Some s'' -> all_ended s'' /\ started s'' = started s'.
Proof. exact disable_waits_lemma. Qed.
Print Assumptions C69_disable_waits_partial.

(** the client 0 registers and emits two tasks *)
Definition two_emitted : list plabel :=
  [PCall 0 (Slot 1); PRun 0 0; PCall 0 (Slot 2); PRun 0 0; PCall 0 Enable; PRun 0 2; PRun 0 2; PRun 0 3; PRun 0 0] ++
  [PCall 0 (Emit 1)] ++ runs 0 3 ++ [PCall 0 (Emit 2)] ++ runs 0 3.

Example C69_disable_waits_nonvacuous : exists s s', preachable (controlled_by 0) (pinit 2 2) s /\ pstep s (PRun 0 0) = Some s' /\
  events s' = EvDisabled 0 :: events s /\ started s' = [1] /\ emitted s' = [1; 2].
Proof.
  destruct (psteps (pinit 2 2) (two_emitted ++ runs 2 15 ++ [PCall 0 Disable] ++ runs 0 4 ++ runs 2 4 ++ runs 3 4 ++ runs 0 3)) as [s|] eqn:E; [|vm_compute in E; discriminate].
  destruct (pstep s (PRun 0 0)) as [s'|] eqn:E'; [|vm_compute in E; injection E as <-; vm_compute in E'; discriminate].
  exists s, s'. split.
  - eapply psteps_controlled; [constructor| |exact E]. vm_compute. repeat constructor.
  - split; [exact E'|]. vm_compute in E. injection E as <-. vm_compute in E'. injection E' as <-. repeat split.
Qed.

(** two threads call disable: the second call returns while a task is being executed *)
Theorem C69_second_disable_refuted : exists ls s, psteps (pinit 2 1) ls = Some s /\
  (exists rest, events s = EvDisabled 1 :: rest) /\ started s = [1] /\ finished s = [] /\ nth_error (pstages s) 2 = Some (PBody 1).
Proof. exact second_disable_refute. Qed.
Print Assumptions C69_second_disable_refuted.
