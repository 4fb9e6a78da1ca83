(** The properties of the wait handlers of py_utils, C96-C100. *)
From Verif Require Import PyWait_spec PyWait_proofs.

Ltac run e v n ls := eexists; split; [refine (reach_steps e v n _ _ ls _ (r_init _ _ _ _) _ _); [repeat constructor|vm_compute; reflexivity]|].

Ltac resting :=
  let l := fresh "l" in let O := fresh "O" in let t := fresh "t" in
  intros l O; destruct l as [|t| |t]; try contradiction O; do 4 (destruct t as [|t]; [vm_compute; reflexivity|]); vm_compute; destruct t; reflexivity.

(** C96: the reason wait returns is the state of the handler when it returns. *)
Theorem C96_reason e v n s l s' t r : reachable e v n anything s -> step s l = Some s' -> history s' = VWaited t r :: history s ->
  exists p, waits_for s t p /\ enabled s' = enabled s /\ value s' = value s /\
    (r = Disabled <-> enabled s = false) /\
    (r = ConditionMet <-> enabled s = true /\ p (value s) = Some true) /\
    (r = Timeout -> enabled s = true /\ p (value s) = Some false /\
       exists a d, last_waits t (history s) = Some (a, Some d) /\ (a + d <= now s)%N).
Proof. exact (reason_of e v n anything s l s' t r). Qed.
Print Assumptions C96_reason.

(** ConditionMet of each of the functions that wait: the value is then what was waited for *)
Theorem C96_conditions e v n s l s' t x : reachable e v n anything s -> step s l = Some s' -> history s' = VWaited t ConditionMet :: history s ->
  (waits_for s t (equal_to x) -> value s' = x) /\ (waits_for s t (greater_equal x) -> (value s' >= x)%Z) /\
  (waits_for s t (greater x) -> (value s' > x)%Z) /\ (waits_for s t is_open -> value s' <> 0%Z) /\ ~ waits_for s t blank.
Proof. exact (conditions e v n s l s' t x). Qed.
Print Assumptions C96_conditions.

(** The documented priority of the reasons, "timeout" before "condition_met", is not what happens: a wait
    whose timeout passed returns ConditionMet when the value was set before it got the lock again. *)
Theorem C96_priority_refuted : exists s, reachable true 0%Z 2 plain s /\
  history s = [VWaited 0 ConditionMet; VSet 1; VWaits 0 0 (Some 5%N)] /\ (0 + 5 < now s)%N.
Proof.
  run true 0%Z 2 [Call 0 (Wait is_open (Some 5%N)); Run 0; Tick 9; Expire 0; Call 1 (SetValue 1); Run 1; Run 0].
  split; vm_compute; reflexivity.
Qed.
Print Assumptions C96_priority_refuted.

Example C96_nonvacuous : exists s, reachable true 0%Z 3 plain s /\
  history s = [VWaited 2 Disabled; VDisable; VWaited 1 Timeout; VWaits 1 0 (Some 5%N); VWaited 0 ConditionMet; VAdd 3; VWaits 2 0 None; VWaits 0 0 None].
Proof.
  run true 0%Z 3 [Call 0 (Wait (greater_equal 3) None); Run 0; Call 2 (Wait blank None); Run 2; Call 1 (Add 3); Run 1; Run 0; Run 2; Call 1 (Wait (equal_to 0) (Some 5%N)); Run 1; Tick 5; Expire 1; Run 1; Call 0 Disable; Run 0; Run 2].
  vm_compute; reflexivity.
Qed.

(** C97: no wake-up is lost. A thread is only asleep while the handler is enabled and its condition does not
    hold ... *)
Theorem C97_asleep e v n s t p d : reachable e v n anything s -> nth_error (threads s) t = Some (WSleep p d) ->
  enabled s = true /\ p (value s) = Some false.
Proof. exact (asleep e v n anything s t p d). Qed.
Print Assumptions C97_asleep.

(** ... of each of the functions that wait ... *)
Theorem C97_asleep_conditions e v n s t d x : reachable e v n anything s ->
  (nth_error (threads s) t = Some (WSleep (equal_to x) d) -> value s <> x) /\ (nth_error (threads s) t = Some (WSleep (greater_equal x) d) -> (value s < x)%Z) /\
  (nth_error (threads s) t = Some (WSleep (greater x) d) -> (value s <= x)%Z) /\ (nth_error (threads s) t = Some (WSleep is_open d) -> value s = 0%Z).
Proof. exact (asleep_conditions e v n s t d x). Qed.
Print Assumptions C97_asleep_conditions.

(** ... and, unless blocking_disable is used, all threads come to rest by themselves after a bounded number of steps, and then each
    one has returned or is asleep with time left. *)
Theorem C97_progress_partial e v n s : reachable e v n plain s ->
  (exists bound, forall ls s', Forall own_step ls -> steps s ls = Some s' -> List.length ls <= bound) /\
  (forall ls s', Forall own_step ls -> steps s ls = Some s' -> at_rest s' -> forall t q, nth_error (threads s') t = Some q ->
     q = Idle \/ exists p d, q = WSleep p d /\ enabled s' = true /\ p (value s') = Some false /\ match d with Some x => (now s' < x)%N | None => True end).
Proof. exact (progress e v n s). Qed.
Print Assumptions C97_progress_partial.

Example C97_nonvacuous : exists s, reachable true 0%Z 3 plain s /\ at_rest s /\
  nth_error (threads s) 0 = Some Idle /\ (exists d, nth_error (threads s) 1 = Some (WSleep (greater 3) d)) /\ history s = [VWaited 0 ConditionMet; VAdd 3; VWaits 1 0 (Some 9%N); VWaits 0 0 None].
Proof.
  run true 0%Z 3 [Call 0 (Wait (greater_equal 3) None); Run 0; Call 1 (Wait (greater 3) (Some 9%N)); Run 1; Call 2 (Add 3); Run 2; Run 0; Run 1].
  split; [|vm_compute; eauto].
  resting.
Qed.

(** C98: disabling the handler makes every wait return, as long as the handler stays disabled ... *)
Theorem C98_partial e v n s : reachable e v n plain s -> at_rest s -> enabled s = false ->
  forall t q, nth_error (threads s) t = Some q -> q = Idle.
Proof. exact (disabled_rest e v n s). Qed.
Print Assumptions C98_partial.

(** ... but a thread that did not get the lock before the handler is enabled again goes on waiting. *)
Theorem C98_refuted : exists s, reachable true 0%Z 2 plain s /\ at_rest s /\
  history s = [VEnable; VDisable; VWaits 0 0 None] /\ exists p, nth_error (threads s) 0 = Some (WSleep p None).
Proof.
  run true 0%Z 2 [Call 0 (Wait is_open None); Run 0; Call 1 Disable; Run 1; Call 1 Enable; Run 1; Run 0].
  split; [|split; [vm_compute; reflexivity|eexists; vm_compute; reflexivity]].
  resting.
Qed.
Print Assumptions C98_refuted.

Example C98_nonvacuous : exists s, reachable true 0%Z 3 plain s /\ at_rest s /\ enabled s = false /\
  history s = [VWaited 1 Disabled; VWaited 0 Disabled; VDisable; VWaits 1 0 (Some 4%N); VWaits 0 0 None].
Proof.
  run true 0%Z 3 [Call 0 (Wait is_open None); Run 0; Call 1 (Wait blank (Some 4%N)); Run 1; Call 2 Disable; Run 2; Run 0; Run 1].
  split; [|split; vm_compute; reflexivity].
  resting.
Qed.

(** C99: blocking_disable returns at once when no thread is waiting, if no predicate ever raised an
    exception ... *)
Theorem C99_free_partial e v n s t s' : reachable e v n anything s -> nth_error (threads s) t = Some (Enter BlockingDisable) -> step s (Run t) = Some s' ->
  (forall u p d, nth_error (threads s) u <> Some (WSleep p d) /\ nth_error (threads s) u <> Some (WWake p d)) ->
  (forall u, ~ In (VRaised u) (history s)) -> history s' = VBlocked t :: history s /\ enabled s' = false.
Proof. exact (fun R H E => proj1 (blocking e v n anything s t s' R H E)). Qed.
Print Assumptions C99_free_partial.

(** ... otherwise neither it nor any other function of the handler ever returns: it keeps the lock that the
    waiting threads need to leave. *)
Theorem C99_refuted e v n s t s' : reachable e v n anything s -> nth_error (threads s) t = Some (Enter BlockingDisable) -> step s (Run t) = Some s' ->
  (exists u p d, nth_error (threads s) u = Some (WSleep p d) \/ nth_error (threads s) u = Some (WWake p d)) \/ (exists u, In (VRaised u) (history s)) -> stuck s'.
Proof. exact (fun R H E => proj2 (blocking e v n anything s t s' R H E)). Qed.
Print Assumptions C99_refuted.

(** C97: with blocking_disable, a thread whose time is over never returns *)
Theorem C97_progress_refuted : exists s, reachable true 0%Z 2 anything s /\ (exists p, nth_error (threads s) 0 = Some (WWake p (Some 3%N))) /\ (3 <= now s)%N /\ enabled s = false /\ stuck s.
Proof.
  destruct (steps (init true 0%Z 2) [Call 0 (Wait is_open (Some 3%N)); Run 0; Tick 5; Call 1 BlockingDisable]) as [s|] eqn:E; [|vm_compute in E; discriminate E].
  destruct (step s (Run 1)) as [s'|] eqn:F; [|vm_compute in E; injection E as <-; vm_compute in F; discriminate F].
  assert (R : reachable true 0%Z 2 anything s) by (refine (reach_steps _ _ _ _ _ _ _ (r_init _ _ _ _) _ E); repeat constructor).
  exists s'. split; [exact (r_step _ _ _ _ _ (Run 1) _ R Logic.I F)|].
  assert (K : stuck s') by (eapply C99_refuted; [exact R| |exact F|left]; vm_compute in E; injection E as <-; [reflexivity|exists 0; do 2 eexists; left; reflexivity]).
  vm_compute in E. injection E as <-. vm_compute in F. injection F as <-. split; [eexists; reflexivity|]. split; [vm_compute; discriminate|]. split; [reflexivity|exact K].
Qed.
Print Assumptions C97_progress_refuted.

Example C99_free_nonvacuous : exists s, reachable true 0%Z 2 anything s /\ nth_error (threads s) 1 = Some (Enter BlockingDisable) /\
  history s = [VWaited 0 ConditionMet; VSet 1; VWaits 0 0 None] /\ (forall u p d, nth_error (threads s) u <> Some (WSleep p d) /\ nth_error (threads s) u <> Some (WWake p d)) /\ exists s', step s (Run 1) = Some s'.
Proof.
  run true 0%Z 2 [Call 0 (Wait is_open None); Run 0; Call 1 (SetValue 1); Run 1; Run 0; Call 1 BlockingDisable].
  split; [vm_compute; reflexivity|]. split; [vm_compute; reflexivity|]. split; [|eexists; vm_compute; reflexivity].
  intros u p d. destruct u as [|[|[|u]]]; vm_compute; split; discriminate.
Qed.
Example C99_nonvacuous : exists s, reachable true 0%Z 2 anything s /\ nth_error (threads s) 1 = Some (Enter BlockingDisable) /\
  (exists p d, nth_error (threads s) 0 = Some (WSleep p d)) /\ exists s', step s (Run 1) = Some s'.
Proof.
  run true 0%Z 2 [Call 0 (Wait is_open (Some 3%N)); Run 0; Call 1 BlockingDisable].
  split; [vm_compute; reflexivity|]. split; [do 2 eexists; vm_compute; reflexivity|eexists; vm_compute; reflexivity].
Qed.
Example C99_raised_nonvacuous : exists s, reachable true 0%Z 2 anything s /\ nth_error (threads s) 1 = Some (Enter BlockingDisable) /\
  In (VRaised 0) (history s) /\ nth_error (threads s) 0 = Some Idle /\ exists s', step s (Run 1) = Some s'.
Proof.
  run true 0%Z 2 [Call 0 (Wait (fun _ => None) None); Run 0; Call 1 BlockingDisable].
  split; [vm_compute; reflexivity|]. split; [left; reflexivity|]. split; [vm_compute; reflexivity|eexists; vm_compute; reflexivity].
Qed.

(** C100: no change of the value is lost: it is what the calls make of it in the order of their effects, and
    get_value returns it. *)
Theorem C100_value e v n s : reachable e v n anything s -> value s = value_after v (history s).
Proof. exact (value_reach e v n anything s). Qed.
Print Assumptions C100_value.
Theorem C100_get e v n s t x older : reachable e v n anything s -> moment s (VGot t x) older -> x = value_after v older.
Proof. exact (got e v n anything s t x older). Qed.
Print Assumptions C100_get.

Example C100_nonvacuous : exists s, reachable true 5%Z 2 anything s /\ moment s (VGot 0 7%Z) [VAdd (-1); VAdd 3] /\ value s = 7%Z.
Proof.
  run true 5%Z 2 [Call 0 (Add 3); Call 1 (Add (-1)); Run 0; Run 1; Call 0 GetValue; Run 0].
  split; [exists []; vm_compute; reflexivity|vm_compute; reflexivity].
Qed.
