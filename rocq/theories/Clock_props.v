(** Property C139. *)
From Coq Require Import Lia.
From Verif Require Import Clock_model Clock_spec Clock_proofs.

(** A wait does not time out before the time given has really passed since its call.
    Missing: the clock may be set forward, see [C139_early_refuted]. *)
Theorem C139_not_early_partial : forall (V : Type) (above reached : V -> bool) (incr decr : V -> V) v en n k l k' t w,
  kreachable above reached incr decr not_forward (kinit v en n) k -> kstep above reached incr decr k l = Some k' ->
  log (handler k') = EvReturn t w Timeout :: log (handler k) -> exists b, nth_error (began k) t = Some b /\ b + w_timeout w <= real k.
Proof. exact early_lemma. Qed.
Print Assumptions C139_not_early_partial.

(** A thread that sleeps in a wait is woken once the time given has really passed since it has read the clock.
    Missing: the clock may be set back, see [C139_late_refuted]. *)
Theorem C139_not_late_partial : forall (V : Type) (above reached : V -> bool) (incr decr : V -> V) v en n k t w dl a,
  kreachable above reached incr decr not_back (kinit v en n) k -> nth_error (threads (handler k)) t = Some (WSleep w dl) -> w_timeout w <> 0 ->
  nth_error (asked k) t = Some a -> a + w_timeout w <= real k -> exists k', kstep above reached incr decr k (KStep (Expire t)) = Some k'.
Proof. exact late_lemma. Qed.
Print Assumptions C139_not_late_partial.

Definition no (v : nat) : bool := false.
Definition nat_ksteps := @ksteps nat no no S pred.
Definition nat_kstep := @kstep nat no no S pred.
Lemma kreach_steps (allowed : kstate nat -> klabel nat -> Prop) k0 ls : forall k k', kreachable no no S pred allowed k0 k ->
  (fix all k ls := match ls with [] => True | l :: ls => allowed k l /\ match nat_kstep k l with Some k' => all k' ls | None => True end end) k ls ->
  nat_ksteps k ls = Some k' -> kreachable no no S pred allowed k0 k'.
Proof.
  induction ls as [|l ls IH]; cbn; intros k k' R A H; [congruence|]. destruct A as [A B]. fold (nat_kstep k l) in H. destruct (nat_kstep k l) as [k1|] eqn:E; [|discriminate].
  eapply IH; [econstructor; eassumption|exact B|exact H].
Qed.
Lemma kreach_any k0 ls : forall k k', kreachable no no S pred any_time k0 k -> nat_ksteps k ls = Some k' -> kreachable no no S pred any_time k0 k'.
Proof.
  induction ls as [|l ls IH]; cbn; intros k k' R H; [congruence|]. fold (nat_kstep k l) in H. destruct (nat_kstep k l) as [k1|] eqn:E; [|discriminate].
  eapply IH; [|exact H]. econstructor; [exact R|exact I|exact E].
Qed.
Definition to_sleep (ms : nat) : list (klabel nat) := [KStep (Call 0 (Wait no ms)); KStep (Run 0 0); KStep (Run 0 0); KStep (Run 0 0)].
Definition to_return : list (klabel nat) := [KStep (Expire 0); KStep (Run 0 0); KStep (Run 0 0); KStep (Run 0 0); KStep (Run 0 0)].

(** a wait of 3 ms that has begun after 2 ms; the clock is set back one ms, and the wait returns after 4 ms *)
Definition slow : list (klabel nat) := repeat (KStep Tick) 2 ++ to_sleep 3 ++ [KSet 1] ++ repeat (KStep Tick) 4 ++ to_return.
Example C139_early_nonvacuous : exists k k' w, kreachable no no S pred not_forward (kinit 0 true 1) k /\ nat_kstep k (KStep (Run 0 0)) = Some k' /\
  log (handler k') = EvReturn 0 w Timeout :: log (handler k) /\ w_timeout w = 3 /\ real k = 6 /\ began k = [2].
Proof.
  destruct (nat_ksteps (kinit 0 true 1) slow) as [k|] eqn:E; [|vm_compute in E; discriminate]. exists k.
  assert (R : kreachable no no S pred not_forward (kinit 0 true 1) k).
  { eapply kreach_steps; [apply kr_init| |exact E]. vm_compute. repeat (split; [first [exact I|lia]|]). exact I. }
  vm_compute in E. injection E as <-. eexists. eexists. split; [exact R|]. split; [vm_compute; reflexivity|]. repeat split.
Qed.
(** the clock is set forward: it may be woken *)
Example C139_late_nonvacuous : exists k w, kreachable no no S pred not_back (kinit 0 true 1) k /\ nth_error (threads (handler k)) 0 = Some (WSleep w (Some 3)) /\
  asked k = [0] /\ w_timeout w = 3 /\ real k = 3 /\ now (handler k) = 10.
Proof.
  destruct (nat_ksteps (kinit 0 true 1) (to_sleep 3 ++ [KStep Tick; KSet 8; KStep Tick; KStep Tick])) as [k|] eqn:E; [|vm_compute in E; discriminate]. exists k.
  assert (R : kreachable no no S pred not_back (kinit 0 true 1) k).
  { eapply kreach_steps; [apply kr_init| |exact E]. vm_compute. repeat (split; [first [exact I|lia]|]). exact I. }
  vm_compute in E. injection E as <-. eexists. split; [exact R|]. repeat split.
Qed.

(** With the clock set forward, a wait of any length times out at once. *)
Theorem C139_early_refuted : forall ms, 0 < ms -> exists k k' w, kreachable no no S pred any_time (kinit 0 true 1) k /\
  nat_kstep k (KStep (Run 0 0)) = Some k' /\ log (handler k') = EvReturn 0 w Timeout :: log (handler k) /\ w_timeout w = ms /\ real k = 0.
Proof.
  intros ms M. destruct ms as [|m]; [lia|].
  set (w := {| w_cv := Main; w_pred := no; w_timeout := S m; w_take := false; w_start := 0 |}).
  set (h := fun time p x => {| value := 0; enabled := true; waiting := 1; mutex := x; status := None; threads := [p]; now := time; log := [] |}).
  set (at_ := fun h : state nat => {| handler := h; real := 0; began := [0]; asked := [0] |}).
  assert (R1 : kreachable no no S pred any_time (kinit 0 true 1) (at_ (h 0 (WSleep w (Some (S m))) None))).
  { eapply kreach_any with (ls := to_sleep (S m)); [apply kr_init|reflexivity]. }
  assert (R2 : kreachable no no S pred any_time (kinit 0 true 1) (at_ (h (S m) (WSleep w (Some (S m))) None))).
  { eapply kr_step with (l := KSet (S m)); [exact R1|exact I|reflexivity]. }
  assert (R3 : kreachable no no S pred any_time (kinit 0 true 1) (at_ (h (S m) (WWoken w (Some (S m)) true) None))).
  { eapply kr_step with (l := KStep (Expire 0)); [exact R2|exact I|]. unfold kstep, step, at_, h. cbn [handler threads nth_error now].
    rewrite PeanoNat.Nat.leb_refl. reflexivity. }
  set (h' := {| value := 0; enabled := true; waiting := 0; mutex := Some 0; status := None; threads := [WRet w Timeout]; now := S m; log := [] |}).
  assert (R4 : kreachable no no S pred any_time (kinit 0 true 1) (at_ h')).
  { eapply kreach_any with (ls := repeat (KStep (Run 0 0)) 4); [exact R3|]. vm_compute. reflexivity. }
  exists (at_ h'), (at_ (set_mutex None (set_pc 0 Idle (emit (EvReturn 0 w Timeout) h')))), w. split; [exact R4|]. split; [vm_compute; reflexivity|]. repeat split.
Qed.
Print Assumptions C139_early_refuted.

(** With the clock set back, a wait of one millisecond lasts as long as one likes. *)
Theorem C139_late_refuted : forall much, exists k w dl, kreachable no no S pred any_time (kinit 0 true 1) k /\ nth_error (threads (handler k)) 0 = Some (WSleep w dl) /\
  w_timeout w = 1 /\ asked k = [much] /\ much + much <= real k /\ nat_kstep k (KStep (Expire 0)) = None.
Proof.
  intro much.
  set (w := {| w_cv := Main; w_pred := no; w_timeout := 1; w_take := false; w_start := much |}).
  set (h := fun time => {| value := 0; enabled := true; waiting := 1; mutex := None; status := None; threads := [WSleep w (Some (much + 1))]; now := time; log := [] |}).
  assert (R1 : kreachable no no S pred any_time (kinit 0 true 1) {| handler := set_now much (init 0 true 1); real := much; began := [0]; asked := [0] |}).
  { generalize much at 1 2 as m. clear. induction m as [|m IH]; [apply kr_init|]. eapply kr_step with (l := KStep Tick); [exact IH|exact I|].
    cbn. rewrite PeanoNat.Nat.add_1_r. reflexivity. }
  assert (R2 : kreachable no no S pred any_time (kinit 0 true 1) {| handler := h much; real := much; began := [much]; asked := [much] |}).
  { eapply kreach_any with (ls := to_sleep 1); [exact R1|reflexivity]. }
  assert (R3 : forall m, kreachable no no S pred any_time (kinit 0 true 1) {| handler := h m; real := much + m; began := [much]; asked := [much] |}).
  { induction m as [|m IH].
    - eapply kr_step with (l := KSet 0); [exact R2|exact I|]. cbn. rewrite PeanoNat.Nat.add_0_r. reflexivity.
    - eapply kr_step with (l := KStep Tick); [exact IH|exact I|]. cbn. unfold h. rewrite PeanoNat.Nat.add_1_r. replace (much + m + 1) with (much + S m) by lia. reflexivity. }
  exists {| handler := h much; real := much + much; began := [much]; asked := [much] |}, w, (Some (much + 1)).
  split; [apply R3|]. split; [reflexivity|]. split; [reflexivity|]. split; [reflexivity|]. split; [apply le_n|]. cbn. replace (much + 1 <=? much) with false; [reflexivity|]. symmetry. apply PeanoNat.Nat.leb_gt. lia.
Qed.
Print Assumptions C139_late_refuted.
