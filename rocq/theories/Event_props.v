(** C44, C45, C46, C48: event handlers. *)
From Coq Require Import List Arith NArith Lia Bool.
From Verif Require Import Threads Event_model Event_spec Event_proofs.
Import ListNotations.

(** C44: since the last reset, the count and what was taken from it are the events that were counted, modulo 2^32 *)
Theorem C44_modulo : forall allowed n s, ereachable allowed n s -> forall h,
  N.modulo (count (hs s h) + nn (decremented h) (since_reset h (history s))) M = N.modulo (nn (counted h) (since_reset h (history s))) M.
Proof. exact (fun allowed n s R h => t_mod _ _ _ (tallied_reach allowed n s R h)). Qed.
Print Assumptions C44_modulo.

(** C44: and exactly while there are less than 2^32 *)
Theorem C44_count_partial : forall allowed n s, ereachable allowed n s -> forall h, (nn (counted h) (since_reset h (history s)) < M)%N ->
  (count (hs s h) + nn (decremented h) (since_reset h (history s)) = nn (counted h) (since_reset h (history s)))%N.
Proof. exact (fun allowed n s R h => t_exact _ _ _ (tallied_reach allowed n s R h)). Qed.
Print Assumptions C44_count_partial.

(** C44: each callback that was called is counted, once, when it returns *)
Theorem C44_called : forall allowed n s, ereachable allowed n s -> forall h, number (called h) (history s) = number (counted h) (history s) + in_progress s h.
Proof. exact called_lemma. Qed.
Print Assumptions C44_called.

(** C44: when no callback is running, the count is the number of calls of the callback minus the decrements, if nobody resets *)
Theorem C44_calls_partial : forall allowed n s, ereachable allowed n s -> forall h, in_progress s h = 0 -> number (was_reset h) (history s) = 0 ->
  (nn (called h) (history s) < M)%N -> (count (hs s h) + nn (decremented h) (history s) = nn (called h) (history s))%N.
Proof. exact quiescent_lemma. Qed.
Print Assumptions C44_calls_partial.

(** C44: what is called is the callback that is set: without callback nothing is called, hence nothing is counted *)
Theorem C44_only_set : forall allowed n s, ereachable allowed n s -> forall t h c older, moment s (VCallback t h c) older -> last_set h older = Some c.
Proof. exact callback_lemma. Qed.
Print Assumptions C44_only_set.
(** C44: an empty callback is never called *)
Theorem C44_no_abort : forall allowed n s, ereachable allowed n s -> forall t h, ~ In (VAbort t h) (history s).
Proof. exact no_abort_lemma. Qed.
Print Assumptions C44_no_abort.

(** two threads, two events, one decrement, an event without callback *)
Definition count_run : list elabel := Call 0 (Occur 0) :: go 0 4 ++ Call 0 (SetCallback 0 (User 7)) :: go 0 5 ++ Call 0 (Occur 0) :: go 0 2 ++ Call 1 (Occur 0) :: go 0 4 ++ go 1 6 ++ [Call 0 (DecrementEventCount 0); Run 0; Call 0 (EventCount 0); Run 0].
Example C44_nonvacuous : exists s, ereachable anything 2 s /\ stacks s = [[]; []] /\ count (hs s 0) = 1%N /\ nn (called 0) (history s) = 2%N /\ nn (decremented 0) (history s) = 1%N /\
  in_progress s 0 = 0 /\ number (was_reset 0) (history s) = 0 /\ In (VRead 0 0 1) (history s).
Proof.
  destruct (csteps any_check (einit 2) count_run) as [s|] eqn:E; [|vm_compute in E; discriminate]. exists s. split; [eapply csteps_reach; [apply any_sound|constructor|exact E]|].
  vm_compute in E. injection E as <-. repeat split; try (vm_compute; reflexivity). cbn. auto.
Qed.
Example C44_only_set_nonvacuous : exists s older, ereachable anything 2 s /\ moment s (VCallback 0 0 (User 7)) older.
Proof.
  destruct (csteps any_check (einit 2) count_run) as [s|] eqn:E; [|vm_compute in E; discriminate]. assert (R : ereachable anything 2 s) by (eapply csteps_reach; [apply any_sound|constructor|exact E]).
  assert (I : In (VCallback 0 0 (User 7)) (history s)) by (vm_compute in E; injection E as <-; cbn; tauto). apply in_split in I. destruct I as (a & b & H). exists s, b. split; [exact R|exists a; exact H].
Qed.

(** C44: a callback that is running when the counter is reset is counted after it *)
Theorem C44_reset_refuted : exists s, ereachable quiet_acyclic 2 s /\ stacks s = [[]; []] /\ count (hs s 0) = 1%N /\ nn (called 0) (since_reset 0 (history s)) = 0%N.
Proof. exact reset_refute. Qed.
Print Assumptions C44_reset_refuted.
(** C44: after 2^32 calls the count is 0 *)
Theorem C44_wrap_refuted : exists s, ereachable quiet_acyclic 1 s /\ stacks s = [[]] /\ count (hs s 0) = 0%N /\ since_reset 0 (history s) = history s /\
  number (decremented 0) (history s) = 0 /\ nn (called 0) (history s) = M.
Proof. exact wrap_refute. Qed.
Print Assumptions C44_wrap_refuted.

(** C45: a callback called after unset_callback returned was set after that *)
Theorem C45_not_called : forall allowed n s, ereachable allowed n s -> forall t u h c mid older, moment s (VCallback t h c) (mid ++ VUnsetDone u h :: older) -> exists v, In (VSet v h c) mid.
Proof. exact no_callback_lemma. Qed.
Print Assumptions C45_not_called.

(** C45: when unset_callback returns the callback is not set and nobody is blocked in wait_for_event *)
Theorem C45_released : forall allowed n s, ereachable allowed n s -> forall t h rest, nth_error (stacks s) t = Some (UUnlockE h :: rest) ->
  is_set (hs s h) = false /\ forall u fs k, nth_error (stacks s) u = Some fs -> ~ In (WBlocked h k) fs.
Proof. exact unset_top_lemma. Qed.
Print Assumptions C45_released.

(** C45: nor is the callback running, if callbacks do not call functions of handlers *)
Theorem C45_not_running_partial : forall n s, ereachable quiet n s -> forall t h rest, nth_error (stacks s) t = Some (UUnlockE h :: rest) ->
  forall u fs f, nth_error (stacks s) u = Some fs -> In f fs -> in_callback h f = false.
Proof. exact not_running_lemma. Qed.
Print Assumptions C45_not_running_partial.

(** C45: nor is a callback replaced while it is running *)
Theorem C45_not_replaced_partial : forall n s, ereachable quiet n s -> clobbered s = false.
Proof. exact clobbered_lemma. Qed.
Print Assumptions C45_not_replaced_partial.

(** C45: and if there is no cycle of handlers either, a thread that does not wait for more events never waits in vain: some thread can go on *)
Theorem C45_no_deadlock_partial : forall n s, ereachable quiet_acyclic n s -> forall t f rest, nth_error (stacks s) t = Some (f :: rest) ->
  (exists h k, f = WBlocked h k /\ (count (hs s h) < k)%N /\ is_set (hs s h) = true) \/ (exists u s', estep s (Run u) = Some s').
Proof. exact progress_lemma. Qed.
Print Assumptions C45_no_deadlock_partial.

(** a thread waits, another one unsets the callback while a third one has the callback running *)
Definition unset_run : list elabel := Call 0 (SetCallback 0 (User 7)) :: go 0 5 ++ Call 1 (WaitForEvent 0 5) :: go 1 2 ++ Call 2 (Occur 0) :: go 2 2 ++ Call 0 (UnsetCallback 0) :: go 0 2.
Example C45_unset_waits : exists s, ereachable quiet_acyclic 3 s /\ stacks s = [[ULockI 0]; [WBlocked 0 5]; [ECallback 0 (User 7)]] /\ estep s (Run 0) = None.
Proof.
  destruct (csteps acyclic_check (einit 3) unset_run) as [s|] eqn:E; [|vm_compute in E; discriminate]. exists s. split; [eapply csteps_reach; [apply acyclic_sound|constructor|exact E]|].
  vm_compute in E. injection E as <-. split; reflexivity.
Qed.
Example C45_released_nonvacuous : exists s, ereachable quiet_acyclic 3 s /\ stacks s = [[UUnlockE 0]; [WResult 0 5]; []].
Proof.
  destruct (csteps acyclic_check (einit 3) (unset_run ++ go 2 4 ++ go 0 5 ++ [Run 1; Run 0; Run 0])) as [s|] eqn:E; [|vm_compute in E; discriminate]. exists s. split; [eapply csteps_reach; [apply acyclic_sound|constructor|exact E]|].
  vm_compute in E. injection E as <-. reflexivity.
Qed.
Example C45_not_called_nonvacuous : exists s mid older, ereachable quiet_acyclic 3 s /\ moment s (VCallback 0 0 (User 8)) (mid ++ VUnsetDone 0 0 :: older).
Proof.
  destruct (csteps acyclic_check (einit 3) (unset_run ++ go 2 4 ++ go 0 5 ++ [Run 1; Run 0; Run 0; Run 0; Call 0 (SetCallback 0 (User 8))] ++ go 0 5 ++ [Call 0 (Occur 0); Run 0; Run 0])) as [s|] eqn:E; [|vm_compute in E; discriminate].
  assert (R : ereachable quiet_acyclic 3 s) by (eapply csteps_reach; [apply acyclic_sound|constructor|exact E]).
  exists s, [VCall 0 (Occur 0); VSetDone 0 0 (User 8); VSet 0 0 (User 8); VCall 0 (SetCallback 0 (User 8))].
  eexists. split; [exact R|]. vm_compute in E. injection E as <-. exists []. cbn. reflexivity.
Qed.

(** C45: a callback that unsets its handler: another unset_callback returns while it is running, and its function has been replaced *)
Theorem C45_running_refuted : exists s older, ereachable anything 2 s /\ history s = VUnsetDone 1 0 :: older /\ nth_error (stacks s) 0 = Some [ECallback 0 (User 0)] /\ clobbered s = true.
Proof. exact nested_refute. Qed.
Print Assumptions C45_running_refuted.
(** C45: or both wait for each other for ever *)
Theorem C45_deadlock_refuted : exists s, ereachable anything 2 s /\ stacks s = [[ULockE 0; ECallback 0 (User 0)]; [ULockI 0]] /\ forall l, estep s l = None.
Proof. exact deadlock_refute. Qed.
Print Assumptions C45_deadlock_refuted.
(** C45: two handlers that forward their events to each other deadlock *)
Theorem C45_cycle_refuted : exists s, ereachable quiet 2 s /\ stacks s = [[ELockI 1; EForward 0 1]; [ELockI 0; EForward 1 0]] /\ forall l, estep s l = None.
Proof. exact cycle_refute. Qed.
Print Assumptions C45_cycle_refuted.

(** C46: the answer says whether the events counted since the last reset, but those taken, are enough *)
Theorem C46_answer_partial : forall allowed m s, ereachable allowed m s -> forall t h n b older, moment s (VWaited t h n b) older -> (nn (counted h) (since_reset h older) < M)%N ->
  b = N.leb (n + nn (decremented h) (since_reset h older)) (nn (counted h) (since_reset h older)).
Proof. exact wait_result_lemma. Qed.
Print Assumptions C46_answer_partial.

(** C46: it is false only if the callback was not set at some moment of the call, or someone reset or decremented the counter meanwhile *)
Theorem C46_false_partial : forall allowed m s, ereachable allowed m s -> forall t h n older, moment s (VWaited t h n false) older ->
  exists mid before, last_call t (WaitForEvent h n) older mid before /\
    (unset_during h mid (VCall t (WaitForEvent h n) :: before) \/ (exists e, In e mid /\ (was_reset h e = true \/ decremented h e = true)) \/ (M <= nn (counted h) older)%N).
Proof. exact wait_false_lemma. Qed.
Print Assumptions C46_false_partial.

(** C46: a thread is blocked only while there are not enough events and the callback is set, or some thread is about to wake it *)
Theorem C46_woken : forall allowed n s, ereachable allowed n s -> forall u h k rest, nth_error (stacks s) u = Some (WBlocked h k :: rest) ->
  (count (hs s h) < k)%N /\ is_set (hs s h) = true \/ (exists t f r s', nth_error (stacks s) t = Some (f :: r) /\ (f = ENotify h \/ f = UAssign h \/ f = UNotify h) /\ estep s (Run t) = Some s').
Proof. exact wakeup_lemma. Qed.
Print Assumptions C46_woken.

(** C46: the counter is reset between the event and the answer *)
Theorem C46_reset_refuted : exists s older mid before, ereachable quiet_acyclic 2 s /\ moment s (VWaited 1 0 1 false) older /\ last_call 1 (WaitForEvent 0 1) older mid before /\
  ~ unset_during 0 mid (VCall 1 (WaitForEvent 0 1) :: before) /\ nn (counted 0) older = 1%N.
Proof. exact lost_refute. Qed.
Print Assumptions C46_reset_refuted.

(** a waiter that is released by its second event, and one that is released by unset_callback *)
Definition wait_run : list elabel := Call 0 (SetCallback 0 (User 7)) :: go 0 5 ++ Call 1 (WaitForEvent 0 2) :: go 1 2 ++ Call 2 (WaitForEvent 0 9) :: go 2 2 ++ Call 0 (Occur 0) :: go 0 6 ++ [Run 1; Run 2] ++ Call 0 (Occur 0) :: go 0 4.
Example C46_woken_nonvacuous : exists s, ereachable quiet_acyclic 3 s /\ stacks s = [[ENotify 0]; [WBlocked 0 2]; [WBlocked 0 9]] /\ count (hs s 0) = 2%N.
Proof.
  destruct (csteps acyclic_check (einit 3) wait_run) as [s|] eqn:E; [|vm_compute in E; discriminate]. exists s. split; [eapply csteps_reach; [apply acyclic_sound|constructor|exact E]|].
  vm_compute in E. injection E as <-. split; reflexivity.
Qed.
Example C46_answer_nonvacuous : exists s, ereachable quiet_acyclic 3 s /\ stacks s = [[]; []; []] /\ In (VWaited 1 0 2 true) (history s) /\ In (VWaited 2 0 9 false) (history s).
Proof.
  destruct (csteps acyclic_check (einit 3) (wait_run ++ go 0 2 ++ go 1 2 ++ Run 2 :: Call 0 (UnsetCallback 0) :: go 0 7 ++ go 2 2 ++ go 0 3)) as [s|] eqn:E; [|vm_compute in E; discriminate]. exists s. split; [eapply csteps_reach; [apply acyclic_sound|constructor|exact E]|].
  vm_compute in E. injection E as <-. split; [reflexivity|]. cbn. tauto.
Qed.

(** C48: when no event is being handled, the count of a multiple handler is the sum of those of its handlers, modulo
    2^32; these may be multiple handlers themselves.
    Missing: resets, decrements and simulated events of the multiple handler; see [C48_reset_refuted]. *)
Theorem C48_sum_partial : forall parent m cs n s, has_handlers parent m -> NoDup cs -> (forall h, In h cs <-> parent h = Some m) ->
  ereachable (registered parent) n s -> settled s -> (count (hs s m) = sum_counts s cs mod M)%N.
Proof. exact sum_lemma. Qed.
Print Assumptions C48_sum_partial.

Definition multi_run : list elabel := Call 0 (SetCallback 0 (User 3)) :: go 0 5 ++ Call 0 (SetCallback 1 (Forward 0)) :: go 0 5 ++ Call 0 (SetCallback 2 (Forward 0)) :: go 0 5 ++
  Call 0 (Occur 1) :: go 0 4 ++ Call 1 (Occur 2) :: go 1 3 ++ go 0 9 ++ go 1 10 ++ Call 1 (Occur 2) :: go 1 13.
(** 4 has the handlers 0 and 3; 0 has the handlers 1 and 2 *)
Definition nest_run : list elabel := Call 0 (SetCallback 4 (User 3)) :: go 0 5 ++ Call 0 (SetCallback 0 (Forward 4)) :: go 0 5 ++ Call 0 (SetCallback 3 (Forward 4)) :: go 0 5 ++
  Call 0 (SetCallback 1 (Forward 0)) :: go 0 5 ++ Call 0 (SetCallback 2 (Forward 0)) :: go 0 5 ++
  Call 0 (Occur 1) :: go 0 4 ++ Call 1 (Occur 3) :: go 1 3 ++ go 0 16 ++ go 1 10 ++ Call 1 (Occur 2) :: go 1 20.
Example C48_sum_nonvacuous : let parent := parent_of [(1, 0); (2, 0); (0, 4); (3, 4)] in
  has_handlers parent 4 /\ has_handlers parent 0 /\ (forall h, In h [0; 3] <-> parent h = Some 4) /\ (forall h, In h [1; 2] <-> parent h = Some 0) /\
  exists s, ereachable (registered parent) 2 s /\ settled s /\ stacks s = [[]; []] /\ map (fun h => count (hs s h)) [0; 1; 2; 3; 4] = [2; 1; 1; 1; 3]%N.
Proof.
  cbv zeta. split; [exists 3; reflexivity|]. split; [exists 1; reflexivity|].
  split; [intros [|[|[|[|h]]]]; cbn; split; intros X; try reflexivity; try discriminate; try tauto; repeat (destruct X as [X|X]; [discriminate|]); destruct X|].
  split; [intros [|[|[|[|h]]]]; cbn; split; intros X; try reflexivity; try discriminate; try tauto; repeat (destruct X as [X|X]; [discriminate|]); destruct X|].
  destruct (csteps (multi_check [(1, 0); (2, 0); (0, 4); (3, 4)]) (einit 2) nest_run) as [s|] eqn:E; [|vm_compute in E; discriminate]. exists s. split; [eapply csteps_reach; [apply multi_sound|constructor|exact E]|].
  vm_compute in E. injection E as <-. split; [|split; reflexivity]. intros [|[|[|t]]] fs f P I; cbn in P; try discriminate; injection P as <-; destruct I.
Qed.
(** C48: resetting the counter of one of the handlers does not change the one of the multiple handler *)
Theorem C48_reset_refuted : exists s, ereachable anything 2 s /\ settled s /\ stacks s = [[]; []] /\ count (hs s 0) = 3%N /\ sum_counts s [1; 2] = 2%N.
Proof.
  destruct (csteps any_check (einit 2) (multi_run ++ Call 0 (ResetEventCount 1) :: go 0 1)) as [s|] eqn:E; [|vm_compute in E; discriminate]. exists s. split; [eapply csteps_reach; [apply any_sound|constructor|exact E]|].
  vm_compute in E. injection E as <-. split; [|repeat split; reflexivity]. intros [|[|[|t]]] fs f P I; cbn in P; try discriminate; injection P as <-; destruct I.
Qed.
Print Assumptions C48_reset_refuted.
