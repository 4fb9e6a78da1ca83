(** C152: every execution in which nobody calls anything ends, with every call of disable returned.
    C153: and with every emitted task executed, if a thread of the pool is left and the queue is not disabled. *)
From Coq Require Import Arith NArith List Permutation.
From Verif Require Import Consumer_spec Pool_model Pool_spec Pool_proofs PoolStop_spec PoolStop_proofs PoolDown_spec PoolDown_proofs PoolRuns_proofs.
Import ListNotations.

(** in whatever order the threads go on, they do so only for a bounded number of steps *)
Theorem C152_runs_end : forall n m s, preachable any_label (pinit n m) s -> exists k, forall ls s', Forall goes_on ls -> psteps s ls = Some s' -> length ls <= k.
Proof. exact runs_end_lemma. Qed.
Print Assumptions C152_runs_end.

(** and when none can go on, no call of disable is left *)
Theorem C152_none_left : forall n m s t g, preachable any_label (pinit n m) s -> at_rest s -> nth_error (pstages s) t = Some g -> disabling g = false.
Proof. exact rest_disabling. Qed.
Print Assumptions C152_none_left.

(** when no thread can go on, and a thread of the pool has not ended and the queue is not disabled, each
    emitted task has started, as many times as it was emitted, and ended *)
Theorem C153_all_executed : forall n m s u g, pbounded (pinit n m) s -> at_rest s -> ~ queue_off s -> nth_error (pstages s) u = Some g -> pool_thread g = true ->
  Permutation (emitted s) (started s) /\ Permutation (started s) (finished s).
Proof. exact all_executed_lemma. Qed.
Print Assumptions C153_all_executed.

(** and no call of emit or slot, and none that waits for the tasks, is left *)
Theorem C153_wait_returns : forall n m s u g t, pbounded (pinit n m) s -> at_rest s -> ~ queue_off s -> nth_error (pstages s) u = Some g -> pool_thread g = true ->
  nth_error (pstages s) t <> Some PWaitTasks.
Proof. exact wait_returns_lemma. Qed.
Print Assumptions C153_wait_returns.
Theorem C153_emit_returns : forall n m s t id, preachable any_label (pinit n m) s -> at_rest s ->
  nth_error (pstages s) t <> Some (PEmit id) /\ nth_error (pstages s) t <> Some (PProduce id) /\ nth_error (pstages s) t <> Some (PSlot id).
Proof. exact rest_emit. Qed.
Print Assumptions C153_emit_returns.

(** and the threads do get there: they cannot go on for ever, in whatever order they do *)
Theorem C153_not_endless : forall n m (run : nat -> pstate), preachable any_label (pinit n m) (run 0) -> (forall i, exists t pick, pstep (run i) (PRun t pick) = Some (run (S i))) -> False.
Proof. exact not_endless_lemma. Qed.
Print Assumptions C153_not_endless.

(** two threads of the pool have executed the two tasks and sleep *)
Example C153_all_executed_nonvacuous : exists s, pbounded (pinit 2 2) s /\ at_rest s /\ ~ queue_off s /\ nth_error (pstages s) 2 = Some PConsume /\ emitted s = [1; 2] /\ started s = [2; 1].
Proof.
  destruct (psteps_checked (pinit 2 2) ([PCall 0 (Slot 1); PRun 0 0; PCall 0 (Slot 2); PRun 0 0; PCall 0 Enable; PRun 0 2; PRun 0 2; PRun 0 3; PRun 0 0; PCall 1 (WaitTasks 0); PCall 0 (Emit 1)] ++ runs 0 3 ++ [PCall 0 (Emit 2)] ++ runs 0 3 ++
    runs 2 13 ++ runs 3 14 ++ runs 3 4 ++ runs 2 6 ++ runs 1 6)) as [s|] eqn:E; [|vm_compute in E; discriminate].
  exists s. split; [exact (psteps_bounded _ _ _ _ _ (pbounded_init _) E)|]. vm_compute in E. injection E as <-. split; [|vm_compute; repeat split; discriminate].
  intros t pick. do 4 (destruct t as [|t]; [vm_compute; reflexivity|]). destruct t; reflexivity.
Qed.
(** a state from which threads can go on for some time *)
Example C152_runs_nonvacuous : exists s s', preachable any_label (pinit 1 1) s /\ Forall goes_on (runs 0 3 ++ runs 1 19) /\ psteps s (runs 0 3 ++ runs 1 19) = Some s' /\ at_rest s' /\ finished s' = [1].
Proof.
  destruct (psteps (pinit 1 1) [PCall 0 (Slot 1); PRun 0 0; PCall 0 Enable; PRun 0 1; PRun 0 1; PRun 0 0; PCall 0 (Emit 1)]) as [s|] eqn:E; [|vm_compute in E; discriminate].
  destruct (psteps s (runs 0 3 ++ runs 1 19)) as [s'|] eqn:E'; [|vm_compute in E; injection E as <-; vm_compute in E'; discriminate].
  exists s, s'. split; [exact (psteps_reachable _ _ _ _ _ (preach_init _ _) E)|]. vm_compute in E. injection E as <-. split.
  - unfold runs. rewrite Forall_app. split; apply Forall_forall; intros l Hl; apply repeat_spec in Hl; subst l; eexists; eexists; reflexivity.
  - split; [exact E'|]. vm_compute in E'. injection E' as <-. split; [|reflexivity]. intros t pick. do 2 (destruct t as [|t]; [vm_compute; reflexivity|]). destruct t; reflexivity.
Qed.
