(** C47, C70, C71, C72, C73: the signal manager and signal handlers. *)
From Coq Require Import NArith.
From Verif Require Import Signal_model Signal_spec Signal_proofs SignalHandler_proofs.

(** ** C47: every signal reaches every registered callback once *)
(** one dispatch calls each function registered when it began, once, in the order of the
    identifiers *)
Theorem C47_dispatch : forall n s older, sreachable anything n s -> moment s VFinished older ->
  exists mid before, older = mid ++ VDispatch :: before /\ one_dispatch mid /\ calls_all (called mid) before.
Proof. exact dispatch_lemma. Qed.
Print Assumptions C47_dispatch.

(** no signal is dispatched twice; those that are not dispatched are pending, or 2^32 were
    pending at once *)
Theorem C47_counted : forall n s, sreachable anything n s ->
  exists k, number arrival (history s) = (number dispatch (history s) + pending s + k * W)%N.
Proof. exact counted_lemma. Qed.
Print Assumptions C47_counted.

(** a manager that sleeps has dispatched all signals, unless a notification fell between its test
    and its sleep *)
Theorem C47_not_lost_partial : forall n s, sreachable anything n s -> manager s = MSleep -> notifying s = 0 -> ~ In VLost (history s) ->
  exists k, number arrival (history s) = (number dispatch (history s) + k * W)%N.
Proof. exact not_lost_lemma. Qed.
Print Assumptions C47_not_lost_partial.

(** the notification is sent without the mutex: a signal that arrives between the test and the
    sleep is not dispatched until another signal arrives *)
Theorem C47_lost_refuted : exists ls s, ssteps (sinit 1) ls = Some s /\ number arrival (history s) = 1%N /\ notifying s = 0 /\ registered (history s) 1 = Some (Raw 7) /\
  forall ls' s', (forall l, In l ls' -> l <> Arrive /\ l <> Spurious) -> ssteps s ls' = Some s' -> number dispatch (history s') = 0%N.
Proof. exact lost_refute. Qed.
Print Assumptions C47_lost_refuted.

(** register_callback gives an identifier that is not in use, in the first 2^32 - 1 registrations *)
Theorem C47_ids_partial : forall n s t id f older, sreachable anything n s -> moment s (VRegistered t id f) older -> (number registration older + 1 < W)%N ->
  registered older id = None.
Proof. exact new_id_lemma. Qed.
Print Assumptions C47_ids_partial.

(** after that it gives the identifier of a registered callback, which is lost *)
Theorem C47_ids_refuted : exists s t older, sreachable anything 1 s /\ moment s (VRegistered t 1 (Raw 8)) older /\ registered older 1 = Some (Raw 7).
Proof. exact ids_refute. Qed.
Print Assumptions C47_ids_refuted.

(** two callbacks are registered, one is unregistered, a third is registered, then a signal arrives *)
Definition signal_run : list slabel :=
  [Call 0 (Register 7); Run 0; Call 0 (Register 8); Run 0; Call 0 (Unregister 1); Run 0; Call 1 (Register 9); Run 1; Arrive; Notify] ++ repeat Manager 12 ++ repeat Manager 4.
Example C47_nonvacuous : exists s older mid before, sreachable anything 2 s /\ moment s VFinished older /\ older = mid ++ VDispatch :: before /\
  called mid = [(2%N, Raw 8); (3%N, Raw 9)] /\ number arrival (history s) = 1%N /\ number dispatch (history s) = 1%N /\ manager s = MBlock /\ notifying s = 0 /\ ~ In VLost (history s).
Proof.
  destruct (ssteps (sinit 2) signal_run) as [s|] eqn:E; [|vm_compute in E; discriminate].
  assert (R : sreachable anything 2 s) by (eapply ssteps_reach; [constructor| |exact E]; vm_compute; repeat constructor).
  exists s, (tl (history s)), [VCall 3 (Raw 9); VCall 2 (Raw 8)], (skipn 4 (history s)). split; [exact R|]. vm_compute in E. injection E as <-.
  split; [exists []; reflexivity|]. split; [reflexivity|]. split; [reflexivity|]. repeat split.
  - cbn [history In]. intuition discriminate.
Qed.
Example C47_ids_nonvacuous : exists s t id f older, sreachable anything 2 s /\ moment s (VRegistered t id f) older /\ number registration older = 1%N.
Proof.
  destruct (ssteps (sinit 2) (firstn 4 signal_run)) as [s|] eqn:E; [|vm_compute in E; discriminate].
  assert (R : sreachable anything 2 s) by (eapply ssteps_reach; [constructor| |exact E]; vm_compute; repeat constructor).
  exists s, 0, 2%N, (Raw 8), (tl (history s)). split; [exact R|]. vm_compute in E. injection E as <-. split; [exists []; reflexivity|reflexivity].
Qed.

(** ** C70: after unregister_callback returns the callback is not running and is not called again *)
Theorem C70_unregistered : forall n s l s' t id, sreachable anything n s -> sstep s l = Some s' -> history s' = VUnregistered t id :: history s ->
  in_call (manager s') = false /\ registered (history s') id = None.
Proof. exact unregistered_lemma. Qed.
Print Assumptions C70_unregistered.

(** whatever is called is registered at that time *)
Theorem C70_called : forall n s id f older, sreachable anything n s -> moment s (VCall id f) older -> registered older id = Some f.
Proof. exact call_lemma. Qed.
Print Assumptions C70_called.

Example C70_nonvacuous : exists s l s', sreachable anything 2 s /\ sstep s l = Some s' /\ history s' = VUnregistered 0 1 :: history s /\ manager s' = MDispatch /\ registered (history s) 1 = Some (Raw 7).
Proof.
  destruct (ssteps (sinit 2) ([Call 0 (Register 7); Run 0; Call 0 (Unregister 1); Arrive] ++ repeat Manager 6)) as [s|] eqn:E; [|vm_compute in E; discriminate].
  assert (R : sreachable anything 2 s) by (eapply ssteps_reach; [constructor| |exact E]; vm_compute; repeat constructor).
  destruct (sstep s (Run 0)) as [s'|] eqn:E'; [|vm_compute in E; injection E as <-; vm_compute in E'; discriminate].
  exists s, (Run 0), s'. split; [exact R|]. split; [exact E'|]. vm_compute in E. injection E as <-. vm_compute in E'. injection E' as <-. repeat split.
Qed.

(** ** C71: destroying the manager *)
(** when the destructor returns the thread has ended, for ever *)
Theorem C71_destroyed : forall n s t older, sreachable anything n s -> moment s (VDestroyed t) older -> manager s = MEnded.
Proof. exact destroyed_lemma. Qed.
Print Assumptions C71_destroyed.

(** the destructor does not wait for a thread that sleeps: its notification is never lost *)
Theorem C71_awake : forall n s t, sreachable anything n s -> nth_error (clients s) t = Some DJoin -> manager s <> MSleep.
Proof. exact join_awake. Qed.
Print Assumptions C71_awake.

Example C71_nonvacuous : exists s older, sreachable anything 1 s /\ moment s (VDestroyed 0) older.
Proof.
  destruct (ssteps (sinit 1) ([Manager; Manager; Manager; Manager; Manager; Call 0 Destroy; Run 0; Run 0] ++ repeat Manager 4 ++ [Run 0])) as [s|] eqn:E; [|vm_compute in E; discriminate].
  assert (R : sreachable anything 1 s) by (eapply ssteps_reach; [constructor| |exact E]; vm_compute; repeat constructor).
  exists s, (tl (history s)). split; [exact R|]. vm_compute in E. injection E as <-. exists []. reflexivity.
Qed.

(** ** C72: a signal handler is registered exactly while its callback is set *)
(** nobody else unregisters, and less than 2^32 registrations *)
Theorem C72_registered_partial : forall n s h, sreachable no_unregister n s -> (number registration (history s) < W)%N ->
  (forall t p, nth_error (clients s) t = Some p -> changing h p = false) ->
  if last_set h (history s) then exists id, forall id', registered (history s) id' = Some (Of h) <-> id' = id
  else forall id, registered (history s) id <> Some (Of h).
Proof. exact registered_while_set. Qed.
Print Assumptions C72_registered_partial.

(** set_callback and unset_callback never throw, which would end the process *)
Theorem C72_no_throw_partial : forall n s t id, sreachable no_unregister n s -> (number registration (history s) < W)%N -> ~ In (VThrow t id) (history s).
Proof. exact no_throw. Qed.
Print Assumptions C72_no_throw_partial.

(** when unset_callback returns the callback is running in no thread, and it is called only after it was set again *)
Theorem C72_unset_partial : forall n s l s' t h, sreachable no_unregister n s -> no_unregister l -> sstep s l = Some s' -> (number registration (history s') < W)%N ->
  history s' = VUnset t h :: history s ->
  in_call_of h (manager s') = false /\ (forall u, nth_error (clients s') u <> Some (EIn h)) /\ forall id, registered (history s') id <> Some (Of h).
Proof. exact unset_lemma. Qed.
Print Assumptions C72_unset_partial.

Theorem C72_not_called_partial : forall n s id h mid t before, sreachable no_unregister n s -> (number registration (history s) < W)%N ->
  moment s (VCall id (Of h)) (mid ++ VUnset t h :: before) -> exists u, In (VRegistered u id (Of h)) mid.
Proof. exact not_called_lemma. Qed.
Print Assumptions C72_not_called_partial.

(** identifiers are plain numbers: if another thread unregisters the one of a signal handler,
    unset_callback throws and the process ends *)
Theorem C72_throw_refuted : exists s, sreachable anything 2 s /\ In (VThrow 0 1) (history s).
Proof. exact throw_refute. Qed.
Print Assumptions C72_throw_refuted.

(** a handler is set, called, unset, set again and called again *)
Definition handler_run : list slabel :=
  [Call 0 (SetCallback 3)] ++ repeat (Run 0) 5 ++ [Arrive; Notify] ++ repeat Manager 11 ++ [Call 1 (UnsetCallback 3)] ++ repeat (Run 1) 5 ++
  [Call 0 (SetCallback 3)] ++ repeat (Run 0) 5 ++ [Arrive; Notify] ++ repeat Manager 8.
Example C72_nonvacuous : exists s, sreachable no_unregister 2 s /\ number registration (history s) = 2%N /\ last_set 3 (history s) = true /\ registered (history s) 2 = Some (Of 3) /\
  clients s = [CIdle; CIdle] /\ exists mid before, moment s (VCall 2 (Of 3)) (mid ++ VUnset 1 3 :: before).
Proof.
  destruct (ssteps (sinit 2) handler_run) as [s|] eqn:E; [|vm_compute in E; discriminate].
  assert (R : sreachable no_unregister 2 s) by (eapply ssteps_reach; [constructor| |exact E]; vm_compute; repeat constructor).
  exists s. split; [exact R|]. vm_compute in E. injection E as <-. split; [reflexivity|]. split; [reflexivity|]. split; [reflexivity|]. split; [reflexivity|].
  exists [VDispatch; VTake; VArrive; VSet 0 3; VRegistered 0 2 (Of 3)]. eexists. exists []. cbn [history app]. reflexivity.
Qed.

(** ** C73: no deadlock *)
(** callbacks that call no function of the manager: as long as a thread is inside a function,
    some thread can go on *)
Theorem C73_progress_partial : forall n s t p, sreachable quiet n s -> nth_error (clients s) t = Some p -> inside p = true ->
  exists l s', own_step l /\ sstep s l = Some s'.
Proof. exact no_deadlock_lemma. Qed.
Print Assumptions C73_progress_partial.

(** a callback that registers or unregisters, or unsets its signal handler: the thread of the
    manager is blocked for ever, nobody can register any more and the manager cannot be destroyed *)
Theorem C73_nested_refuted : exists ls s, ssteps (sinit 1) ls = Some s /\ number registration (history s) = 1%N /\
  forall ls' s', ssteps s ls' = Some s' -> manager s' = MNested (Raw 7) [] /\ number registration (history s') = 1%N /\ forall t, ~ In (VDestroyed t) (history s').
Proof. exact nested_refute. Qed.
Print Assumptions C73_nested_refuted.

(** one thread unsets, another simulates an event, the manager is waiting for the callback *)
Example C73_nonvacuous : exists s, sreachable quiet 2 s /\ clients s = [UClear 3; EIn 3] /\ (exists r, manager s = MWant 3 r) /\ sstep s Manager = None /\ sstep s (Run 0) = None.
Proof.
  destruct (ssteps (sinit 2) ([Call 0 (SetCallback 3)] ++ repeat (Run 0) 5 ++ [Arrive; Notify] ++ repeat Manager 8 ++ [Call 1 (Simulate 3); Run 1; Call 0 (UnsetCallback 3); Run 0])) as [s|] eqn:E; [|vm_compute in E; discriminate].
  assert (R : sreachable quiet 2 s) by (eapply ssteps_reach; [constructor| |exact E]; cbn [repeat app]; repeat (apply Forall_cons; [discriminate|]); apply Forall_nil).
  exists s. split; [exact R|]. vm_compute in E. injection E as <-. split; [reflexivity|]. split; [eexists; reflexivity|]. split; reflexivity.
Qed.
