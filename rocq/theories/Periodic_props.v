(** Properties of periodic event handlers. *)
From Verif Require Import Periodic_model Periodic_spec Periodic_proofs.

(** ** C74: one period thread, none once unset, and calls only while set *)
Theorem C74_one_thread : forall allowed k n s, preachable allowed k n s -> ~ In VTerminate (history s).
Proof. exact one_thread_lemma. Qed.
Print Assumptions C74_one_thread.

Theorem C74_only_set : forall allowed k n s e older, preachable allowed k n s -> moment s e older -> a_call e -> last_set older = true.
Proof. exact only_set_lemma. Qed.
Print Assumptions C74_only_set.

Theorem C74_unset : forall allowed k n s, preachable allowed k n s -> last_set (history s) = false -> ~ running s /\ timer s = PNone.
Proof. exact unset_lemma. Qed.
Print Assumptions C74_unset.

Theorem C74_no_deadlock_partial : forall k n s t p, preachable quiet k n s -> nth_error (clients s) t = Some p -> inside p ->
  exists l s', own_step l /\ pstep s l = Some s'.
Proof. exact progress_lemma. Qed.
Print Assumptions C74_no_deadlock_partial.

Theorem C74_unset_returns_partial : forall k n s t, preachable quiet k n s -> nth_error (clients s) t = Some UJoin ->
  exists m s', m <= 4 /\ psteps s (repeat Timer m ++ [Run t; Run t]) = Some s' /\ history s' = VUnset t :: history s.
Proof. exact unset_ends. Qed.
Print Assumptions C74_unset_returns_partial.

Theorem C74_comes_partial : forall k n s, preachable quiet k n s -> (forall t p, nth_error (clients s) t = Some p -> p = CIdle) -> last_set (history s) = true ->
  exists ls s' b h, Forall by_itself ls /\ psteps s ls = Some s' /\ history s' = VCalled b :: h.
Proof. exact comes_lemma. Qed.
Print Assumptions C74_comes_partial.

(** thread 0 sets a callback, which is called at 10; thread 1 begins to unset it while the period
    thread waits again and returns at 12 *)
Definition a_set : list plabel := Call 0 SetCallback :: repeat (Run 0) 5.
Definition until_call : list plabel := [Timer; Timer; Timer; Timer; Timer; Tick 10; Timeout; Timer; Timer; Timer].
Definition start_unset : list plabel := [Timer; Timer; Timer; Timer; Timer; Timer; Tick 2; Call 1 UnsetCallback; Run 1; Run 1; Run 1; Run 1].

Lemma run_reachable allowed k n ls s : Forall allowed ls -> psteps (pinit k n) ls = Some s -> preachable allowed k n s.
Proof. intros F E. exact (reach_steps _ _ _ _ _ (pr_init _ _ _) F _ E). Qed.

Ltac all_allowed := repeat (apply Forall_cons; [exact I|]); apply Forall_nil.

Example C74_nonvacuous : exists s s', preachable quiet 10 2 s /\ nth_error (clients s) 1 = Some UJoin /\
  psteps s [Timer; Timer; Timer; Run 1; Run 1] = Some s' /\ preachable quiet 10 2 s' /\
  history s' = [VUnset 1; VReturned 10; VCalled 10; VSet 0; VStarted 0; VSetting 0] /\ last_set (history s') = false /\ now s' = 12%N.
Proof.
  destruct (psteps (pinit 10 2) (a_set ++ until_call ++ start_unset)) as [s|] eqn:E; [|vm_compute in E; discriminate E].
  assert (preachable quiet 10 2 s) as R by (eapply run_reachable; [|exact E]; all_allowed).
  destruct (psteps s [Timer; Timer; Timer; Run 1; Run 1]) as [s'|] eqn:E'; [|vm_compute in E; injection E as <-; vm_compute in E'; discriminate E'].
  assert (preachable quiet 10 2 s') as R' by (eapply reach_steps; [exact R| |exact E']; all_allowed).
  exists s, s'. vm_compute in E. injection E as <-. vm_compute in E'. injection E' as <-. repeat split; assumption.
Qed.

Example C74_comes_nonvacuous : exists s, preachable quiet 10 2 s /\ clients s = [CIdle; CIdle] /\ last_set (history s) = true /\ timer s = PLoop.
Proof.
  destruct (psteps (pinit 10 2) a_set) as [s|] eqn:E; [|vm_compute in E; discriminate E].
  assert (preachable quiet 10 2 s) as R by (eapply run_reachable; [|exact E]; all_allowed).
  exists s. vm_compute in E. injection E as <-. repeat split; assumption.
Qed.

(** ** C75: the time between calls *)
Theorem C75_spacing : forall allowed k n s b older, preachable allowed k n s -> moment s (VCalled b) older ->
  exists a, last_mark older = Some a /\ (a + k <= b)%N.
Proof. exact spacing_lemma. Qed.
Print Assumptions C75_spacing.

Theorem C75_no_delay : forall k n s b older, punctual k n s -> moment s (VCalled b) older -> exists a, last_mark older = Some a /\ b = (a + k)%N.
Proof. exact punctual_lemma. Qed.
Print Assumptions C75_no_delay.

Theorem C75_period : forall k, new_periodic k = (if N.eqb k 0 then Throw Initialization else Ret k).
Proof. intros []; reflexivity. Qed.
Print Assumptions C75_period.

(** the callback runs during 10 *)
Definition long_callback : list plabel := [Tick 10; Timer].

Lemma punctual_run k n ls : forall s, punctual k n s -> forall s', psteps s ls = Some s' ->
  (fix ok (s : pstate) (ls : list plabel) : Prop := match ls with [] => True | l :: ls' => prompt s l /\ match pstep s l with Some s1 => ok s1 ls' | None => True end end) s ls -> punctual k n s'.
Proof.
  induction ls as [|l ls IH]; intros s H s' E O; cbn [psteps] in E; [injection E as <-; exact H|].
  destruct O as [O1 O2]. destruct (pstep s l) as [s1|] eqn:E1; [|discriminate E]. exact (IH s1 (pu_step _ _ _ _ _ H O1 E1) s' E O2).
Qed.

(** without delays, a callback set with period 10 at time 0 is called at 10 and 30, not at 20 *)
Theorem C75_each_period_refuted : exists s, punctual 10 1 s /\ last_set (history s) = true /\ In (VStarted 0) (history s) /\ now s = 30%N /\ call_times (history s) = [10; 30]%N.
Proof.
  destruct (psteps (pinit 10 1) (a_set ++ until_call ++ long_callback ++ until_call)) as [s|] eqn:E; [|vm_compute in E; discriminate E].
  assert (punctual 10 1 s) as R.
  { eapply punctual_run; [apply pu_init|exact E|]. vm_compute. repeat (split; [first [exact I|discriminate]|]). exact I. }
  exists s. vm_compute in E. injection E as <-. vm_compute. repeat split; try exact R. do 4 right. left. reflexivity.
Qed.
Print Assumptions C75_each_period_refuted.

Example C75_nonvacuous : exists s older, preachable quiet 10 2 s /\ moment s (VCalled 10) older /\ last_mark older = Some 0%N.
Proof.
  destruct (psteps (pinit 10 2) (a_set ++ until_call)) as [s|] eqn:E; [|vm_compute in E; discriminate E].
  assert (preachable quiet 10 2 s) as R by (eapply run_reachable; [|exact E]; all_allowed).
  exists s, (tl (history s)). split; [exact R|]. vm_compute in E. injection E as <-. split; [exists []; reflexivity|reflexivity].
Qed.

(** ** C76: calls from the callback *)
(** a callback that unsets its own handler: nothing happens any more *)
Theorem C76_unset_refuted : exists s, preachable anything 10 1 s /\ running s /\ hd_error (history s) = Some VUnsetSelf /\ stuck s.
Proof.
  destruct (psteps (pinit 10 1) (a_set ++ until_call ++ [Nested false; Timer])) as [s|] eqn:E; [|vm_compute in E; discriminate E].
  assert (preachable anything 10 1 s) as R by (eapply run_reachable; [|exact E]; all_allowed).
  exists s. split; [exact R|]. assert (timer s = PSelf) as T by (vm_compute in E; injection E as <-; reflexivity).
  split; [left; rewrite T; exact I|]. split; [vm_compute in E; injection E as <-; reflexivity|]. exact (self_stuck _ _ _ _ R T).
Qed.
Print Assumptions C76_unset_refuted.

(** a callback that sets its own handler while another thread begins to set or to unset it *)
Theorem C76_set_refuted : forall c, c = SetCallback \/ c = UnsetCallback ->
  exists s, preachable no_unset 10 2 s /\ running s /\ nth_error (clients s) 1 <> Some CIdle /\ stuck s.
Proof.
  intros c Hc.
  destruct (psteps (pinit 10 2) (a_set ++ until_call ++ [Call 1 c; Run 1; Nested true])) as [s|] eqn:E; [|destruct Hc as [-> | ->]; vm_compute in E; discriminate E].
  assert (preachable no_unset 10 2 s) as R by (eapply run_reachable; [|exact E]; all_allowed).
  exists s. split; [exact R|].
  assert (timer s = PNest true /\ (nth_error (clients s) 1 = Some SSet \/ nth_error (clients s) 1 = Some UClear)) as [T C]
    by (destruct Hc as [-> | ->]; vm_compute in E; injection E as <-; auto).
  split; [left; rewrite T; exact I|]. split; [destruct C as [-> | ->]; discriminate|]. exact (crossed_stuck _ _ _ _ _ _ R T C).
Qed.
Print Assumptions C76_set_refuted.

(** if no other thread is inside, the callback can set its own handler *)
Theorem C76_set_alone_partial : forall k n s, preachable no_unset k n s -> timer s = PNest true -> (forall t p, nth_error (clients s) t = Some p -> p = CIdle) ->
  exists s', pstep s Timer = Some s' /\ timer s' = PIn.
Proof. exact (set_alone_lemma no_unset). Qed.
Print Assumptions C76_set_alone_partial.

Example C76_set_alone_nonvacuous : exists s, preachable no_unset 10 2 s /\ timer s = PNest true /\ clients s = [CIdle; CIdle].
Proof.
  destruct (psteps (pinit 10 2) (a_set ++ until_call ++ [Nested true])) as [s|] eqn:E; [|vm_compute in E; discriminate E].
  assert (preachable no_unset 10 2 s) as R by (eapply run_reachable; [|exact E]; all_allowed).
  exists s. vm_compute in E. injection E as <-. repeat split; assumption.
Qed.
