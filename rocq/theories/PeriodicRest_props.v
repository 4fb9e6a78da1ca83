(** Theorems of C157. *)
From Verif Require Import Periodic_model Periodic_spec Periodic_proofs PeriodicRest_spec PeriodicRest_proofs.
Local Open Scope N_scope.

(** C157. Whatever the threads do, they can go on only finitely often until somebody calls a function or time passes; when none can go on, every function has returned, and the period
    thread waits for the end of a period if the callback is set, and is not there otherwise: for callbacks that do not use their own handler. *)
Theorem C157_rest_partial : forall k n s, 0 < k -> preachable quiet k n s -> exists bound, forall ls s', Forall goes_on ls -> psteps s ls = Some s' ->
  (length ls <= bound)%nat /\ (at_rest s' -> (forall t p, nth_error (clients s') t = Some p -> p = CIdle) /\
    if last_set (history s') then exists d, timer s' = PSleep d /\ now s' < d <= now s' + k else timer s' = PNone).
Proof. exact rest_lemma. Qed.
Print Assumptions C157_rest_partial.
(** C157. When then at least a period passes, the callback is called, in whatever order the threads go on. *)
Theorem C157_called_partial : forall k n s wait s1 ls s', preachable quiet k n s -> at_rest s -> last_set (history s) = true -> k <= wait -> pstep s (Tick wait) = Some s1 -> Forall goes_on ls -> psteps s1 ls = Some s' -> at_rest s' ->
  exists newer b older, history s' = newer ++ VCalled b :: older ++ history s.
Proof. exact called_lemma. Qed.
Print Assumptions C157_called_partial.

(** a thread sets the callback; then a period passes *)
Example C157_nonvacuous : exists s s' s2, preachable quiet 10 2 s /\ clients s = [SLock; CIdle] /\ Forall goes_on (repeat (Run 0) 5 ++ repeat Timer 5) /\ psteps s (repeat (Run 0) 5 ++ repeat Timer 5) = Some s' /\ at_rest s' /\
  last_set (history s') = true /\ timer s' = PSleep 10 /\ psteps s' (Tick 10 :: Timeout :: repeat Timer 9) = Some s2 /\ at_rest s2 /\ call_times (history s2) = [10].
Proof.
  destruct (psteps (pinit 10 2) [Call 0 SetCallback]) as [s|] eqn:E; [|vm_compute in E; discriminate]. exists s.
  assert (R : preachable quiet 10 2 s) by (eapply reach_steps; [constructor| |exact E]; repeat (apply Forall_cons; [exact I|]); apply Forall_nil). vm_compute in E. injection E as <-.
  eexists. eexists. split; [exact R|]. split; [reflexivity|]. split; [cbn [repeat app]; repeat (apply Forall_cons; [unfold goes_on; eauto|]); apply Forall_nil|]. split; [vm_compute; reflexivity|].
  split; [intros l [-> |[-> |[t ->]]]; [reflexivity|reflexivity|]; destruct t as [|[|t]]; [reflexivity|reflexivity|]; cbn; destruct t; reflexivity|].
  split; [reflexivity|]. split; [reflexivity|]. split; [vm_compute; reflexivity|]. split; [|reflexivity]. intros l [-> |[-> |[t ->]]]; [reflexivity|reflexivity|]; destruct t as [|[|t]]; [reflexivity|reflexivity|]; cbn; destruct t; reflexivity.
Qed.

(** C157. Refuted: with a callback that unsets its own handler nobody can go on, while another thread is inside unset_callback, and nothing is called any more. *)
Theorem C157_nested_refuted : exists s t, preachable anything 10 1 s /\ at_rest s /\ nth_error (clients s) t = Some ULock /\ forall ls s', psteps s ls = Some s' -> history s' = history s.
Proof.
  destruct (psteps (pinit 10 1) ([Call 0 SetCallback] ++ repeat (Run 0) 5 ++ repeat Timer 5 ++ [Tick 10; Timeout; Timer; Timer; Timer; Nested false; Timer; Call 0 UnsetCallback])) as [s|] eqn:E; [|vm_compute in E; discriminate]. exists s, 0%nat.
  assert (R : preachable anything 10 1 s) by (eapply reach_steps; [constructor| |exact E]; cbn [repeat app]; repeat (apply Forall_cons; [exact I|]); apply Forall_nil).
  pose proof (self_stuck _ _ _ _ R) as K. vm_compute in E. injection E as <-. split; [exact R|]. split; [|split; [reflexivity|exact (K eq_refl)]].
  intros l [-> |[-> |[t ->]]]; [reflexivity|reflexivity|]. destruct t as [|t]; [reflexivity|]. cbn. destruct t; reflexivity.
Qed.
Print Assumptions C157_nested_refuted.
