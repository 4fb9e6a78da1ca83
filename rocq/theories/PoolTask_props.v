(** C126: what a task may call of its pool. C127: tasks that throw. *)
From Coq Require Import Arith NArith List.
From Verif Require Import Consumer_spec Pool_model Pool_spec Pool_proofs PoolTask_spec PoolTask_proofs.
Import ListNotations.

(** emit can always return, without the end of any task that is being executed *)
Theorem C126_emit_returns : forall n m s u id, preachable any_label (pinit n m) s ->
  nth_error (pstages s) u = Some (PEmit id) \/ nth_error (pstages s) u = Some (PProduce id) ->
  exists ls s', psteps s ls = Some s' /\ length ls <= 12 /\ only_operations s ls /\ nth_error (pstages s') u = Some PIdle /\
    exists evs, events s' = EvEmitted u id :: evs \/ events s' = EvEmitRefused u id :: evs.
Proof. exact emit_returns_lemma. Qed.
Print Assumptions C126_emit_returns.

(** the same of slot *)
Theorem C126_slot_returns : forall n m s u id, preachable any_label (pinit n m) s -> nth_error (pstages s) u = Some (PSlot id) ->
  exists ls s', psteps s ls = Some s' /\ length ls <= 12 /\ only_operations s ls /\ nth_error (pstages s') u = Some PIdle /\
    exists evs, events s' = EvSlotted u id :: evs \/ events s' = EvSlotRefused u id :: evs.
Proof. exact slot_returns_lemma. Qed.
Print Assumptions C126_slot_returns.

(** and so they do not need more than tasks are able to do, whichever clients are tasks *)
Theorem C126_tasks_can : forall home ls s s', only_operations s ls -> psteps s ls = Some s' -> texec home all_allowed s s'.
Proof. exact operations_rules. Qed.
Print Assumptions C126_tasks_can.

(** a task that disables its pool waits for its own thread: neither the call nor the task ends *)
Theorem C126_disable_stuck : forall home allowed s u t us id, home u = Some t -> nth_error (pstages s) u = Some (PJoin us) -> In t us ->
  nth_error (pstages s) t = Some (PBody id) -> forall s', texec home allowed s s' ->
  (exists us', nth_error (pstages s') u = Some (PJoin us') /\ In t us') /\ nth_error (pstages s') t = Some (PBody id).
Proof. exact disable_stuck_lemma. Qed.
Print Assumptions C126_disable_stuck.

Theorem C126_disable_refuted : exists s, texec one_home all_allowed (pinit 2 1) s /\
  events s = [EvStart 2 1; EvEmitted 0 2; EvEmitted 0 1; EvEnabled 0; EvSlotted 0 2; EvSlotted 0 1] /\
  nth_error (pstages s) 2 = Some (PBody 1) /\ nth_error (pstages s) 1 = Some (PJoin [2]) /\
  forall s', texec one_home all_allowed s s' -> nth_error (pstages s') 2 = Some (PBody 1) /\ nth_error (pstages s') 1 <> Some PIdle.
Proof. exact disable_refute. Qed.
Print Assumptions C126_disable_refuted.

(** a task that waits, in a pool of one thread, until all tasks are consumed, waits forever if
    there is another one in the queue and nobody disables the pool *)
Theorem C126_wait_refuted : exists s, texec one_home all_allowed (pinit 2 1) s /\
  events s = [EvStart 2 1; EvEmitted 0 2; EvEmitted 0 1; EvEnabled 0; EvSlotted 0 2; EvSlotted 0 1] /\
  pool_enabled s = true /\ nth_error (pstages s) 1 = Some PWaitTasks /\
  forall s', texec one_home kept_enabled s s' ->
    nth_error (pstages s') 1 = Some PWaitTasks /\ nth_error (pstages s') 2 = Some (PBody 1) /\ started s' = [1].
Proof. exact wait_refute. Qed.
Print Assumptions C126_wait_refuted.

(** the task 1 of the thread 2 emits the task 3 *)
Example C126_emit_nonvacuous : exists s, texec one_home all_allowed (pinit 2 1) s /\ preachable any_label (pinit 2 1) s /\
  nth_error (pstages s) 1 = Some (PEmit 3) /\ nth_error (pstages s) 2 = Some (PBody 1).
Proof.
  destruct (one_steps (pinit 2 1) (first_task ++ [PCall 1 (Emit 3)])) as [s|] eqn:E; [|vm_compute in E; discriminate].
  exists s. split; [exact (one_steps_texec _ _ _ _ (texec_init _ _ _) E)|]. split.
  - destruct (psteps (pinit 2 1) (first_task ++ [PCall 1 (Emit 3)])) as [s1|] eqn:E1; [|vm_compute in E1; discriminate].
    assert (s1 = s) as <- by (vm_compute in E, E1; congruence). exact (psteps_reachable _ _ _ _ _ (preach_init _ _) E1).
  - vm_compute in E. injection E as <-. split; reflexivity.
Qed.

(** while the queue is enabled the pool has lost one thread for each task that threw, and no other *)
Theorem C127_losses : forall n m s, preachable any_label (pinit n m) s -> ~ queue_off s -> number ended s = length (thrown s).
Proof. exact losses_lemma. Qed.
Print Assumptions C127_losses.

(** a pool that has lost all its threads executes nothing any more, also when enable is called again,
    unless it is disabled (and then see C36) *)
Theorem C127_orphaned : forall s, orphaned s -> forall ls s', Forall never_disabled ls -> psteps s ls = Some s' -> started s' = started s.
Proof. exact orphaned_lemma. Qed.
Print Assumptions C127_orphaned.

(** the only thread of a pool executes a task that throws DisabledException: the pool is enabled,
    and accepts a task that it will never execute *)
Theorem C127_lost_refuted : exists ls s, psteps (pinit 1 3) ls = Some s /\ pool_enabled s = true /\ ~ queue_off s /\
  events s = [EvEmitted 0 2; EvThrown 1 1 true; EvStart 1 1; EvEmitted 0 1; EvEnabled 0; EvSlotted 0 2; EvSlotted 0 1] /\
  forall ls' s', Forall never_disabled ls' -> psteps s ls' = Some s' -> started s' = [1].
Proof. exact lost_refute. Qed.
Print Assumptions C127_lost_refuted.

(** one thread of two is lost *)
Example C127_losses_nonvacuous : exists ls s, psteps (pinit 1 2) ls = Some s /\ ~ queue_off s /\ thrown s = [1] /\ number ended s = 1.
Proof.
  exists ([PCall 0 (Slot 1); PRun 0 0; PCall 0 Enable; PRun 0 2; PRun 0 1; PRun 0 2; PRun 0 0; PCall 0 (Emit 1)] ++ runs 0 3 ++ runs 1 14 ++ [PThrow 1 true]).
  eexists. split; [vm_compute; reflexivity|]. repeat split; discriminate.
Qed.
