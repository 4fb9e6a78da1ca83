(** C152: disabling a thread pool returns. *)
From Coq Require Import Arith NArith List.
From Verif Require Import Consumer_spec Pool_model Pool_spec Pool_proofs PoolStop_spec PoolStop_proofs PoolStop_props PoolDown_spec PoolDown_proofs.
Import ListNotations.

(** wherever a client is inside disable, whatever the others are doing, the threads get it to return
    by going on with what they are doing: no other call, spurious wake up or time out is needed *)
Theorem C152_disable_returns : forall n m s t g, preachable any_label (pinit n m) s -> nth_error (pstages s) t = Some g -> disabling g = true ->
  exists ls s' evs, Forall goes_on ls /\ psteps s ls = Some s' /\ nth_error (pstages s') t = Some PIdle /\ events s' = EvDisabled t :: evs.
Proof. exact disable_returns_lemma. Qed.
Print Assumptions C152_disable_returns.

(** once the queue of tasks is disabled, each thread of the pool gets to its end in the same way,
    however deep in the queue or in a task it is *)
Theorem C152_thread_ends : forall n m s u g, preachable any_label (pinit n m) s -> queue_off s -> nth_error (pstages s) u = Some g -> pool_thread g = true ->
  exists ls s', Forall goes_on ls /\ psteps s ls = Some s' /\ nth_error (pstages s') u = Some PEnded.
Proof.
  intros n m s u g R Off Hu Hp. destruct (thread_ends n m u _ s g (le_n _) R Off Hu Hp) as (ls & s' & F & E & _ & _ & H & _). exists ls, s'. auto.
Qed.
Print Assumptions C152_thread_ends.

(** the thread 2 executes the task 1, the thread 3 is asleep, the client 1 emits and the client 0 disables *)
Example C152_disable_nonvacuous : exists s, preachable any_label (pinit 2 2) s /\ disabling PDisable = true /\ nth_error (pstages s) 0 = Some PDisable /\ pool_enabled s = true /\
  nth_error (pstages s) 2 = Some (PBody 1) /\ nth_error (pstages s) 3 = Some PConsume /\ nth_error (pstages s) 1 = Some (PProduce 2) /\ started s = [1].
Proof.
  destruct (psteps (pinit 2 2) ([PCall 0 (Slot 1); PRun 0 0; PCall 0 (Slot 2); PRun 0 0; PCall 0 Enable; PRun 0 2; PRun 0 2; PRun 0 3; PRun 0 0] ++ runs 3 4 ++
    [PCall 0 (Emit 1); PRun 0 0; PRun 0 0; PRun 0 3] ++ runs 2 14 ++ runs 3 2 ++ [PCall 1 (Emit 2); PRun 1 0; PCall 0 Disable])) as [s|] eqn:E; [|vm_compute in E; discriminate].
  exists s. split; [exact (psteps_reachable _ _ _ _ _ (preach_init _ _) E)|]. vm_compute in E. injection E as <-. vm_compute. repeat split.
Qed.

(** a schedule with which the client 0 returns *)
Example C152_schedule_nonvacuous : exists s s', preachable any_label (pinit 2 1) s /\ nth_error (pstages s) 0 = Some (PJoin [2]) /\ queue_off s /\ nth_error (pstages s) 2 = Some (PBody 1) /\
  Forall goes_on (runs 2 5 ++ runs 0 2) /\ psteps s (runs 2 5 ++ runs 0 2) = Some s' /\ nth_error (pstages s') 0 = Some PIdle /\ nth_error (pstages s') 2 = Some PEnded.
Proof.
  destruct (psteps (pinit 2 1) ([PCall 0 (Slot 1); PRun 0 0; PCall 0 Enable; PRun 0 1; PRun 0 2; PRun 0 0; PCall 0 (Emit 1)] ++ runs 0 3 ++ runs 2 14 ++ [PCall 0 Disable] ++ runs 0 5)) as [s|] eqn:E; [|vm_compute in E; discriminate].
  destruct (psteps s (runs 2 5 ++ runs 0 2)) as [s'|] eqn:E'; [|vm_compute in E; injection E as <-; vm_compute in E'; discriminate].
  exists s, s'. split; [exact (psteps_reachable _ _ _ _ _ (preach_init _ _) E)|]. vm_compute in E. injection E as <-. vm_compute in E'. injection E' as <-.
  split; [reflexivity|]. split; [reflexivity|]. split; [reflexivity|]. split; [|vm_compute; repeat split].
  unfold runs. rewrite Forall_app. split; apply Forall_forall; intros l Hl; apply repeat_spec in Hl; subst l; eexists; eexists; reflexivity.
Qed.
