(** C35, C36, C37: the thread pool. *)
From Coq Require Import NArith List Permutation.
From Verif Require Import Consumer_spec Pool_model Pool_spec Pool_proofs.
Import ListNotations.

(** a client thread (0) registers and emits two tasks; the threads 1 and 2 of the pool *)
Definition two_tasks : list plabel :=
  [PCall 0 (Slot 1); PRun 0 0; PCall 0 (Slot 2); PRun 0 0; PCall 0 Enable; PRun 0 2; PRun 0 1; PRun 0 2; PRun 0 0] ++
  [PCall 0 (Emit 1)] ++ runs 0 3 ++ [PCall 0 (Emit 2)] ++ runs 0 3.

(** C35: executed only if emitted, and not more often *)
Theorem C35_once : forall n m s, preachable any_label (pinit n m) s ->
  forall id, times id (started s) <= times id (emitted s).
Proof. exact pool_once_lemma. Qed.
Print Assumptions C35_once.

Example C35_once_nonvacuous : exists s, preachable any_label (pinit 1 2) s /\ started s = [1] /\ emitted s = [1; 2].
Proof.
  destruct (psteps (pinit 1 2) (two_tasks ++ runs 1 14)) as [s|] eqn:E; [|vm_compute in E; discriminate].
  exists s. split; [eapply psteps_reachable; [constructor|exact E]|]. vm_compute in E. injection E as <-. split; reflexivity.
Qed.

(** C35: what is emitted is registered, the threads take it in the order of emission, and
    thread_routine_ never finds an unregistered identifier *)
Theorem C35_registered : forall n m s, preachable any_label (pinit n m) s ->
  (forall id, In id (emitted s) -> In id (slots s)) /\ prefix (taken s) (emitted s) /\ (forall t id, ~ In (EvAbort t id) (events s)).
Proof. exact pool_emitted_lemma. Qed.
Print Assumptions C35_registered.

Example C35_registered_nonvacuous : exists s, preachable any_label (pinit 1 2) s /\ taken s = [1] /\ emitted s = [1; 2] /\ slots s = [2; 1] /\
  In (EvEmitRefused 0 3) (events s).
Proof.
  destruct (psteps (pinit 1 2) (two_tasks ++ runs 1 13 ++ [PCall 0 (Emit 3); PRun 0 0])) as [s|] eqn:E; [|vm_compute in E; discriminate].
  exists s. split; [eapply psteps_reachable; [constructor|exact E]|]. vm_compute in E. injection E as <-. split; [reflexivity|]. split; [reflexivity|]. split; [reflexivity|left; reflexivity].
Qed.

(** C35: consume never throws an exception that thread_routine_ does not expect *)
Theorem C35_no_exception : forall n m s, preachable any_label (pinit n m) s -> forall t, ~ In (EvUncaught t) (events s).
Proof. exact uncaught_lemma. Qed.
Print Assumptions C35_no_exception.

Example C35_no_exception_nonvacuous : exists s, pbounded (pinit 1 2) s /\ finished s = [1] /\ nth_error (pstages s) 1 = Some PEnded.
Proof.
  destruct (psteps_checked (pinit 1 2) (two_tasks ++ runs 1 15 ++ [PCall 0 Disable] ++ runs 0 4 ++ runs 1 4)) as [s|] eqn:E; [|vm_compute in E; discriminate].
  exists s. split; [eapply psteps_bounded; [constructor|exact E]|]. vm_compute in E. injection E as <-. split; reflexivity.
Qed.

(** C35, order.  What is missing: pools with several threads. *)
Theorem C35_order_partial : forall n s, preachable any_label (pinit n 1) s -> prefix (started s) (emitted s).
Proof. exact one_thread_lemma. Qed.
Print Assumptions C35_order_partial.

Example C35_order_partial_nonvacuous : exists s, preachable any_label (pinit 1 1) s /\ started s = [1; 2] /\ emitted s = [1; 2; 1].
Proof.
  destruct (psteps (pinit 1 1) ([PCall 0 (Slot 1); PRun 0 0; PCall 0 (Slot 2); PRun 0 0; PCall 0 Enable; PRun 0 1; PRun 0 1; PRun 0 0] ++
    [PCall 0 (Emit 1)] ++ runs 0 3 ++ [PCall 0 (Emit 2)] ++ runs 0 3 ++ [PCall 0 (Emit 1)] ++ runs 0 3 ++ runs 1 28)) as [s|] eqn:E; [|vm_compute in E; discriminate].
  exists s. split; [eapply psteps_reachable; [constructor|exact E]|]. vm_compute in E. injection E as <-. split; reflexivity.
Qed.

Theorem C35_order_refuted : exists ls s, psteps (pinit 1 2) ls = Some s /\ emitted s = [1; 2] /\ started s = [2; 1].
Proof. exact order_refute. Qed.
Print Assumptions C35_order_refuted.

(** C36: a pool disabled once, and enabled again, never executes anything *)
Theorem C36_restart_refuted : exists ls1 s1, psteps (pinit 1 2) ls1 = Some s1 /\
  events s1 = [EvDisabled 0; EvEnabled 0; EvSlotted 0 1] /\
  (forall ls2 s2, psteps s1 ls2 = Some s2 -> started s2 = []) /\
  exists ls2 s2, psteps s1 ls2 = Some s2 /\ pool_enabled s2 = true /\ events s2 = [EvEmitted 0 1; EvEnabled 0] ++ events s1.
Proof. exact restart_refute. Qed.
Print Assumptions C36_restart_refuted.

(** ... in general *)
Theorem C36_never_again : forall n m s, preachable any_label (pinit n m) s -> queue_off s ->
  (forall t g, nth_error (pstages s) t = Some g -> pool_thread g = false) ->
  forall ls s', psteps s ls = Some s' -> started s' = started s.
Proof. exact never_again_lemma. Qed.
Print Assumptions C36_never_again.

Example C36_never_again_nonvacuous : exists s, preachable any_label (pinit 1 2) s /\ queue_off s /\ started s = [1] /\ finished s = [1] /\
  (forall t g, nth_error (pstages s) t = Some g -> pool_thread g = false) /\ emitted s = [1; 2].
Proof.
  destruct (psteps (pinit 1 2) (two_tasks ++ runs 1 15 ++ [PCall 0 Disable] ++ runs 0 4 ++ runs 1 4 ++ runs 2 4 ++ runs 0 3)) as [s|] eqn:E; [|vm_compute in E; discriminate].
  exists s. split; [eapply psteps_reachable; [constructor|exact E]|]. vm_compute in E. injection E as <-. split; [reflexivity|]. split; [reflexivity|]. split; [reflexivity|]. split; [|reflexivity].
  intros [|[|[|t]]] g Hg; cbn in Hg; try (injection Hg as <-; reflexivity). destruct t; discriminate.
Qed.

(** C36: as long as the queue has not been disabled, no task is left behind: when all threads of
    the pool are asleep and no client is inside the pool, everything emitted has been executed.
    What is missing: the pool after its first disable. *)
Theorem C36_none_left_partial : forall n m s, pbounded (pinit n m) s -> ~ queue_off s -> (exists t, nth_error (pstages s) t = Some PConsume) ->
  (forall t g, nth_error (pstages s) t = Some g -> g = PIdle \/ g = PUnborn \/ g = PEnded \/ (g = PConsume /\ asleep s t)) ->
  Permutation (emitted s) (started s).
Proof. exact none_left_lemma. Qed.
Print Assumptions C36_none_left_partial.

Example C36_none_left_partial_nonvacuous : exists s, pbounded (pinit 1 2) s /\ ~ queue_off s /\ (exists t, nth_error (pstages s) t = Some PConsume) /\
  (forall t g, nth_error (pstages s) t = Some g -> g = PIdle \/ g = PUnborn \/ g = PEnded \/ (g = PConsume /\ asleep s t)) /\ emitted s = [1; 2].
Proof.
  destruct (psteps_checked (pinit 1 2) (two_tasks ++ runs 1 33 ++ runs 2 4)) as [s|] eqn:E; [|vm_compute in E; discriminate].
  exists s. split; [eapply psteps_bounded; [constructor|exact E]|]. vm_compute in E. injection E as <-. split; [discriminate|]. split; [exists 1; reflexivity|]. split; [|reflexivity].
  intros [|[|[|t]]] g Hg; cbn in Hg; try (injection Hg as <-).
  - left. reflexivity.
  - right. right. right. split; [reflexivity|]. eexists. eexists. reflexivity.
  - right. right. right. split; [reflexivity|]. eexists. eexists. reflexivity.
  - destruct t; discriminate.
Qed.

(** C37: wait_all_consumed reports success although the task emitted before has not started *)
Theorem C37_executed_refuted : exists ls s, psteps (pinit 1 1) ls = Some s /\
  events s = [EvWaited 0 ConditionMet; EvEmitted 0 1; EvEnabled 0; EvSlotted 0 1] /\ emitted s = [1] /\ started s = [].
Proof. exact wait_tasks_refute. Qed.
Print Assumptions C37_executed_refuted.

(** C37: what is true when it reports success: at most one task per thread of the pool, and
    those of the calls to emit in progress, have not started *)
Theorem C37_taken_partial : forall n m s l s' t r, pbounded (pinit n m) s -> pstep s l = Some s' -> (N.of_nat (in_queue (queue s')) < 2 ^ 32)%N ->
  events s' = EvWaited t r :: events s -> r = ConditionMet ->
  length (emitted s') <= length (started s') + number pool_thread s' + number emitting s'.
Proof. exact wait_tasks_lemma. Qed.
Print Assumptions C37_taken_partial.

Example C37_taken_partial_nonvacuous : exists s s', pbounded (pinit 1 2) s /\ pstep s (PRun 0 0) = Some s' /\ (N.of_nat (in_queue (queue s')) < 2 ^ 32)%N /\
  events s' = EvWaited 0 ConditionMet :: events s /\ length (emitted s') = 2 /\ started s' = [1] /\ number pool_thread s' = 2.
Proof.
  destruct (psteps_checked (pinit 1 2) (two_tasks ++ runs 1 14 ++ runs 2 7 ++ [PCall 0 (WaitTasks 0)] ++ runs 0 5)) as [s|] eqn:E; [|vm_compute in E; discriminate].
  destruct (pstep s (PRun 0 0)) as [s'|] eqn:E'; [|vm_compute in E; injection E as <-; vm_compute in E'; discriminate].
  exists s, s'. split; [eapply psteps_bounded; [constructor|exact E]|]. split; [exact E'|]. vm_compute in E. injection E as <-. vm_compute in E'. injection E' as <-.
  split; [reflexivity|]. split; [reflexivity|]. split; [reflexivity|]. split; reflexivity.
Qed.
