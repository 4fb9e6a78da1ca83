From Verif Require Import Random_model Random_spec.

Section Proofs.
Variable G : Type.
Variable mt_seed : N -> G.
Variable mt_draw : G -> G * N.
Variable mt_default : G.
Let rsteps := rsteps G mt_seed mt_draw.
Let rinit := rinit G mt_seed mt_default.
Let random_spec := random_spec G mt_seed mt_draw.
Let nth_random := nth_random G mt_seed mt_draw.

Fixpoint after (g : G) (n : nat) : G := match n with 0 => g | S n' => after (fst (mt_draw g)) n' end.
Lemma after_S n : forall g, after g (S n) = fst (mt_draw (after g n)).
Proof. induction n as [|n IH]; intro g; [reflexivity|]. cbn [after] in *. rewrite <- IH. reflexivity. Qed.
Lemma drawn_after n : forall g, drawn G mt_draw g n = snd (mt_draw (after g n)).
Proof. induction n as [|n IH]; intro g; [reflexivity|]. cbn. apply IH. Qed.

Lemma manager_lemma os : forall m sd n, std_gen G m = after (mt_seed sd) n ->
  random_results G mt_seed mt_draw (sd, n) os (manager_calls G mt_seed mt_draw m os).
Proof.
  induction os as [|o os IH]; intros m sd n E; [constructor|]. cbn [manager_calls]. destruct o as [v| |sd'|sd']; cbn [manager_call].
  - cbn. econstructor; [constructor|]. apply IH. exact E.
  - rewrite E. destruct (mt_draw (after (mt_seed sd) n)) as [g v] eqn:D. cbn [fst snd].
    replace v with (nth_random sd n) by (unfold nth_random, Random_spec.nth_random; rewrite drawn_after, D; reflexivity).
    econstructor; [constructor|]. apply IH. cbn [std_gen]. rewrite after_S, D. reflexivity.
  - cbn. econstructor; [constructor|]. apply IH. reflexivity.
  - destruct (mt_draw (mt_seed sd')) as [g v] eqn:D. cbn [fst snd].
    replace v with (nth_random sd' 0) by (unfold nth_random, Random_spec.nth_random; cbn; rewrite D; reflexivity).
    econstructor; [constructor|]. apply IH. exact E.
Qed.

Lemma manager_results_lemma sd os : random_results G mt_seed mt_draw (sd, 0) os (manager_calls G mt_seed mt_draw (new_manager G mt_seed mt_default sd) os).
Proof. apply manager_lemma. reflexivity. Qed.

(** the threads *)
Definition phase_ok (t : nat) (p : rand_pc G) evs : Prop :=
  match p with
  | RIdle => thread_phase t evs NotCalled
  | RLock o | RHeld o | RDraw o | RRead o _ => thread_phase t evs (Called o)
  | RDone o r | RRet o r => thread_phase t evs (Done o r)
  end.
Definition pc_ok (s : rstate G) (p : rand_pc G) : Prop :=
  match p with
  | RRead SequenceRand g => g = gen s Std
  | RRead (SeededRand sd) g => g = mt_seed sd
  | RDraw (SeededRand sd) => gen s Seeded = mt_seed sd
  | RRead _ _ | RDraw _ => False
  | _ => True
  end.

Record RI (sd0 : N) (s : rstate G) : Prop := {
  ri_seq : exists sd n, sequential random_spec (sd0, 0) (revents s) (sd, n) /\ gen s Std = after (mt_seed sd) n;
  ri_phase : forall t p, nth_error (rpcs s) t = Some p -> phase_ok t p (revents s);
  ri_none : forall t, nth_error (rpcs s) t = None -> thread_phase t (revents s) NotCalled;
  ri_pc : forall t p, nth_error (rpcs s) t = Some p -> pc_ok s p;
  ri_lock : forall x t p, nth_error (rpcs s) t = Some p -> uses x p = true -> lock s x = Some t }.

Lemma ri_init sd n : RI sd (rinit sd n).
Proof.
  split; cbn.
  - exists sd, 0. split; [constructor|reflexivity].
  - intros t p H. apply nth_all in H as ->. constructor.
  - constructor.
  - intros t p H. apply nth_all in H as ->. exact I.
  - intros x t p H U. apply nth_all in H as ->. discriminate.
Qed.

(** steps that change neither generators nor effects *)
Lemma phases s t p p' evs : (forall t p, nth_error (rpcs s) t = Some p -> phase_ok t p (revents s)) -> (forall t, nth_error (rpcs s) t = None -> thread_phase t (revents s) NotCalled) ->
  nth_error (rpcs s) t = Some p -> phase_ok t p' evs -> (forall u ph, u <> t -> thread_phase u (revents s) ph -> thread_phase u evs ph) ->
  (forall u q, nth_error (upd (rpcs s) t p') u = Some q -> phase_ok u q evs) /\ (forall u, nth_error (upd (rpcs s) t p') u = None -> thread_phase u evs NotCalled).
Proof.
  intros A B P Q O. split.
  - intros u q Hu. destruct (nth_upd _ _ _ _ _ Hu) as [[-> ->]|[N X]]; [exact Q|]. specialize (A _ _ X). destruct q; cbn in *; apply O; auto.
  - intros u Hu. destruct (Nat.eq_dec t u) as [<-|N]; [rewrite (nth_upd_same _ _ _ _ P) in Hu; discriminate|]. rewrite nth_upd_other in Hu by exact N. apply O; auto.
Qed.

Lemma gen_eqb_eq x y : gen_eqb x y = true <-> x = y.
Proof. destruct x, y; cbn; split; congruence. Qed.

Ltac same_evs := intros u ph _ H; exact H.
Ltac other := intros u ph N H; apply ph_other; [cbn; congruence|exact H].

Lemma ri_step sd0 s l s' : RI sd0 s -> rstep G mt_seed mt_draw s l = Some s' -> RI sd0 s'.
Proof.
  intros [(sd & n & Q & Eg) Ph No Pc Lk] E. destruct l as [t o|t]; cbn [rstep] in E.
  - unfold rcall in E. destruct (nth_error (rpcs s) t) as [[]|] eqn:P; try discriminate. injection E as <-.
    destruct (phases s t _ (RLock o) (LCall t o :: revents s) Ph No P) as [A B]; [constructor; exact (Ph _ _ P)|other|].
    split; cbn; auto.
    + exists sd, n. split; [constructor; exact Q|exact Eg].
    + intros u p Hu. destruct (nth_upd _ _ _ _ _ Hu) as [[-> ->]|[N X]]; [exact I|exact (Pc _ _ X)].
    + intros x u p Hu U. destruct (nth_upd _ _ _ _ _ Hu) as [[-> ->]|[N X]]; [discriminate|exact (Lk _ _ _ X U)].
  - unfold rrun in E. destruct (nth_error (rpcs s) t) as [p|] eqn:P; [|discriminate]. pose proof (Ph _ _ P) as Pt. pose proof (Pc _ _ P) as Ct. pose proof (fun x => Lk x _ _ P) as Lt.
    destruct p as [|o|o|o|o g|o r|o r]; cbn [phase_ok pc_ok uses] in *.
    + discriminate.
    + destruct (gen_of o) as [x|] eqn:O.
      * destruct (lock s x) eqn:F; [discriminate|]. injection E as <-.
        destruct (phases s t _ (RHeld o) (revents s) Ph No P Pt) as [A B]; [same_evs|]. split; cbn; auto.
        -- exists sd, n. auto.
        -- intros u p Hu. destruct (nth_upd _ _ _ _ _ Hu) as [[-> ->]|[N X]]; [exact I|exact (Pc _ _ X)].
        -- intros y u p Hu U. unfold set. destruct (nth_upd _ _ _ _ _ Hu) as [[-> ->]|[N X]].
           ++ cbn in U. rewrite O in U. apply gen_eqb_eq in U as ->. destruct x; reflexivity.
           ++ destruct (gen_eqb x y) eqn:Y; [|exact (Lk _ _ _ X U)]. apply gen_eqb_eq in Y as <-. rewrite (Lk _ _ _ X U) in F. discriminate.
      * destruct o as [v| | |]; try discriminate. injection E as <-.
        destruct (phases s t _ (RRet (PureRand v) (Some v)) (LDo t (PureRand v) (Some v) :: revents s) Ph No P) as [A B]; [constructor; exact Pt|other|].
        split; cbn; auto.
        -- exists sd, n. split; [econstructor; [exact Q|constructor]|exact Eg].
        -- intros u p Hu. destruct (nth_upd _ _ _ _ _ Hu) as [[-> ->]|[N X]]; [exact I|exact (Pc _ _ X)].
        -- intros y u p Hu U. destruct (nth_upd _ _ _ _ _ Hu) as [[-> ->]|[N X]]; [discriminate|exact (Lk _ _ _ X U)].
    + destruct o as [v| |sd'|sd']; try discriminate; injection E as <-.
      * destruct (phases s t _ (RRead SequenceRand (gen s Std)) (revents s) Ph No P Pt) as [A B]; [same_evs|]. split; cbn; auto.
        -- exists sd, n. auto.
        -- intros u p Hu. destruct (nth_upd _ _ _ _ _ Hu) as [[-> ->]|[N X]]; [reflexivity|exact (Pc _ _ X)].
        -- intros y u p Hu U. destruct (nth_upd _ _ _ _ _ Hu) as [[-> ->]|[N X]]; [exact (Lt _ U)|exact (Lk _ _ _ X U)].
      * destruct (phases s t _ (RDone (SetSeed sd') None) (LDo t (SetSeed sd') None :: revents s) Ph No P) as [A B]; [constructor; exact Pt|other|].
        split; cbn; auto.
        -- exists sd', 0. split; [econstructor; [exact Q|constructor]|reflexivity].
        -- intros u p Hu. destruct (nth_upd _ _ _ _ _ Hu) as [[-> ->]|[N X]]; [exact I|].
           destruct p as [|o|o|o|o g|o r|o r]; try exact I; pose proof (Pc _ _ X) as C; destruct o; cbn in *; auto.
           pose proof (Lk Std _ _ X eq_refl) as L1. rewrite (Lt Std eq_refl) in L1. congruence.
        -- intros y u p Hu U. destruct (nth_upd _ _ _ _ _ Hu) as [[-> ->]|[N X]]; [exact (Lt _ U)|exact (Lk _ _ _ X U)].
      * destruct (phases s t _ (RDraw (SeededRand sd')) (revents s) Ph No P Pt) as [A B]; [same_evs|]. split; cbn; auto.
        -- exists sd, n. auto.
        -- intros u p Hu. destruct (nth_upd _ _ _ _ _ Hu) as [[-> ->]|[N X]]; [reflexivity|].
           destruct p as [|o|o|o|o g|o r|o r]; try exact I; pose proof (Pc _ _ X) as C; destruct o; cbn in *; auto.
           pose proof (Lk Seeded _ _ X eq_refl) as L1. rewrite (Lt Seeded eq_refl) in L1. congruence.
        -- intros y u p Hu U. destruct (nth_upd _ _ _ _ _ Hu) as [[-> ->]|[N X]]; [exact (Lt _ U)|exact (Lk _ _ _ X U)].
    + destruct o as [v| |sd'|sd']; try (exfalso; exact Ct); injection E as <-.
      destruct (phases s t _ (RRead (SeededRand sd') (gen s Seeded)) (revents s) Ph No P Pt) as [A B]; [same_evs|]. split; cbn; auto.
      * exists sd, n. auto.
      * intros u p Hu. destruct (nth_upd _ _ _ _ _ Hu) as [[-> ->]|[N X]]; [exact Ct|exact (Pc _ _ X)].
      * intros y u p Hu U. destruct (nth_upd _ _ _ _ _ Hu) as [[-> ->]|[N X]]; [exact (Lt _ U)|exact (Lk _ _ _ X U)].
    + destruct (gen_of o) as [x|] eqn:O; [|discriminate]. destruct (mt_draw g) as [g' v] eqn:D. injection E as <-.
      destruct (phases s t _ (RDone o (Some v)) (LDo t o (Some v) :: revents s) Ph No P) as [A B]; [constructor; exact Pt|other|].
      destruct o as [w| |sd'|sd']; try discriminate; try (exfalso; exact Ct); injection O as <-.
      * subst g. split; cbn; auto.
        -- exists sd, (S n). split; [|change (g' = after (mt_seed sd) (S n)); rewrite after_S, <- Eg, D; reflexivity].
           econstructor; [exact Q|]. replace v with (nth_random sd n) by (unfold nth_random, Random_spec.nth_random; rewrite drawn_after, <- Eg, D; reflexivity). constructor.
        -- intros u p Hu. destruct (nth_upd _ _ _ _ _ Hu) as [[-> ->]|[N X]]; [exact I|].
           destruct p as [|o|o|o|o g|o r|o r]; try exact I; pose proof (Pc _ _ X) as C; destruct o; cbn in *; auto.
           pose proof (Lk Std _ _ X eq_refl) as L1. rewrite (Lt Std eq_refl) in L1. congruence.
        -- intros y u p Hu U. destruct (nth_upd _ _ _ _ _ Hu) as [[-> ->]|[N X]]; [exact (Lt _ U)|exact (Lk _ _ _ X U)].
      * subst g. split; cbn; auto.
        -- exists sd, n. split; [|exact Eg].
           econstructor; [exact Q|]. replace v with (nth_random sd' 0) by (unfold nth_random, Random_spec.nth_random; cbn; rewrite D; reflexivity). constructor.
        -- intros u p Hu. destruct (nth_upd _ _ _ _ _ Hu) as [[-> ->]|[N X]]; [exact I|].
           destruct p as [|o|o|o|o g|o r|o r]; try exact I; pose proof (Pc _ _ X) as C; destruct o; cbn in *; auto.
           pose proof (Lk Seeded _ _ X eq_refl) as L1. rewrite (Lt Seeded eq_refl) in L1. congruence.
        -- intros y u p Hu U. destruct (nth_upd _ _ _ _ _ Hu) as [[-> ->]|[N X]]; [exact (Lt _ U)|exact (Lk _ _ _ X U)].
    + destruct (gen_of o) as [x|] eqn:O; [|discriminate]. injection E as <-.
      destruct (phases s t _ (RRet o r) (revents s) Ph No P Pt) as [A B]; [same_evs|]. split; cbn; auto.
      * exists sd, n. auto.
      * intros u p Hu. destruct (nth_upd _ _ _ _ _ Hu) as [[-> ->]|[N X]]; [exact I|exact (Pc _ _ X)].
      * intros y u p Hu U. unfold set. destruct (nth_upd _ _ _ _ _ Hu) as [[-> ->]|[N X]]; [discriminate|].
        destruct (gen_eqb x y) eqn:Y; [|exact (Lk _ _ _ X U)]. apply gen_eqb_eq in Y as <-.
        assert (Z : lock s x = Some t) by (apply Lt; destruct x; reflexivity). pose proof (Lk _ _ _ X U) as Z'. congruence.
    + injection E as <-. destruct (phases s t _ RIdle (LRet t o r :: revents s) Ph No P) as [A B]; [econstructor; exact Pt|other|]. split; cbn; auto.
      * exists sd, n. split; [constructor; exact Q|exact Eg].
      * intros u p Hu. destruct (nth_upd _ _ _ _ _ Hu) as [[-> ->]|[N X]]; [exact I|exact (Pc _ _ X)].
      * intros y u p Hu U. destruct (nth_upd _ _ _ _ _ Hu) as [[-> ->]|[N X]]; [discriminate|exact (Lk _ _ _ X U)].
Qed.

Lemma ri_steps sd0 ls : forall s s', RI sd0 s -> rsteps s ls = Some s' -> RI sd0 s'.
Proof.
  unfold rsteps. induction ls as [|l ls IH]; cbn [Random_model.rsteps]; intros s s' R E; [injection E as <-; exact R|].
  destruct (rstep G mt_seed mt_draw s l) as [s0|] eqn:E0; [|discriminate]. exact (IH _ _ (ri_step _ _ _ _ R E0) E).
Qed.

Lemma random_linear_lemma sd n ls s : rsteps (rinit sd n) ls = Some s -> linearizable random_spec (sd, 0) (revents s).
Proof.
  intro E. destruct (ri_steps sd ls _ _ (ri_init sd n) E) as [(sd' & k & Q & _) Ph No _ _]. split; [eauto|].
  intro t. destruct (nth_error (rpcs s) t) as [p|] eqn:P; [|eauto]. specialize (Ph _ _ P). destruct p; cbn in Ph; eauto.
Qed.

Lemma exclusive_lemma sd n ls s : rsteps (rinit sd n) ls = Some s ->
  forall x t u p q, nth_error (rpcs s) t = Some p -> nth_error (rpcs s) u = Some q -> uses x p = true -> uses x q = true -> t = u.
Proof.
  intro E. destruct (ri_steps sd ls _ _ (ri_init sd n) E) as [_ _ _ _ Lk]. intros x t u p q P R U V. pose proof (Lk _ _ _ P U). pose proof (Lk _ _ _ R V). congruence.
Qed.

(** some thread can always go on *)
Definition held (s : rstate G) : Prop := forall x t, lock s x = Some t -> exists p, nth_error (rpcs s) t = Some p /\ uses x p = true.

Lemma held_upd s t p p' : held s -> nth_error (rpcs s) t = Some p -> (forall x, uses x p = true -> uses x p' = true) ->
  forall x u, lock s x = Some u -> exists q, nth_error (upd (rpcs s) t p') u = Some q /\ uses x q = true.
Proof.
  intros H P U x u L. destruct (H _ _ L) as (q & Q & V). destruct (Nat.eq_dec t u) as [<-|N].
  - exists p'. split; [eapply nth_upd_same; exact P|]. apply U. congruence.
  - exists q. split; [rewrite nth_upd_other by exact N; exact Q|exact V].
Qed.

Lemma held_step s l s' : held s -> rstep G mt_seed mt_draw s l = Some s' -> held s'.
Proof.
  intros H E. destruct l as [t o|t]; cbn [rstep] in E.
  - unfold rcall in E. destruct (nth_error (rpcs s) t) as [[]|] eqn:P; try discriminate. injection E as <-. intros x u L. cbn in *. eapply held_upd; eauto; discriminate.
  - unfold rrun in E. destruct (nth_error (rpcs s) t) as [p|] eqn:P; [|discriminate].
    assert (K : forall s1 p', lock s1 = lock s -> rpcs s1 = upd (rpcs s) t p' -> (forall x, uses x p = true -> uses x p' = true) -> held s1).
    { intros s1 p' A B U x u L. rewrite B. rewrite A in L. eapply held_upd; eauto. }
    destruct p as [|o|o|o|o g|o r|o r].
    + discriminate.
    + destruct (gen_of o) as [x|] eqn:O.
      * destruct (lock s x) eqn:F; [discriminate|]. injection E as <-. intros y u L. cbn in *. unfold set in L. destruct (gen_eqb x y) eqn:Y.
        -- injection L as <-. exists (RHeld o). split; [eapply nth_upd_same; exact P|]. cbn. rewrite O. destruct x, y; auto.
        -- eapply held_upd; eauto; discriminate.
      * destruct o as [v| | |]; try discriminate. injection E as <-. eapply K; [reflexivity|reflexivity|discriminate].
    + destruct o as [v| |sd'|sd']; try discriminate; injection E as <-; (eapply K; [reflexivity|reflexivity|intros x U; exact U]).
    + injection E as <-. eapply K; [reflexivity|reflexivity|intros x U; exact U].
    + destruct (gen_of o) as [x|] eqn:O; [|discriminate]. destruct (mt_draw g) as [g' v]. injection E as <-. eapply K; [reflexivity|reflexivity|intros y U; exact U].
    + destruct (gen_of o) as [x|] eqn:O; [|discriminate]. injection E as <-. intros y u L. cbn in *. unfold set in L. destruct (gen_eqb x y) eqn:Y; [discriminate|].
      destruct (H _ _ L) as (q & Q & V). destruct (Nat.eq_dec t u) as [<-|N].
      * rewrite P in Q. injection Q as <-. cbn in V. rewrite O in V. destruct x, y; discriminate.
      * exists q. split; [rewrite nth_upd_other by exact N; exact Q|exact V].
    + injection E as <-. eapply K; [reflexivity|reflexivity|discriminate].
Qed.

Lemma held_steps ls : forall s s', held s -> rsteps s ls = Some s' -> held s'.
Proof.
  unfold rsteps. induction ls as [|l ls IH]; cbn [Random_model.rsteps]; intros s s' R E; [injection E as <-; exact R|].
  destruct (rstep G mt_seed mt_draw s l) as [s0|] eqn:E0; [|discriminate]. exact (IH _ _ (held_step _ _ _ R E0) E).
Qed.

Lemma can_run s t p : nth_error (rpcs s) t = Some p -> pc_ok s p -> (exists x, uses x p = true) -> exists s', rstep G mt_seed mt_draw s (RRun t) = Some s'.
Proof.
  intros P C [x U]. cbn [rstep]. unfold rrun. rewrite P. destruct p as [|o|o|o|o g|o r|o r]; cbn in *; try discriminate.
  - destruct o; eauto. discriminate.
  - eauto.
  - destruct (gen_of o); [destruct (mt_draw g); eauto|discriminate].
  - destruct (gen_of o); [eauto|discriminate].
Qed.

Definition inside (p : rand_pc G) : Prop := match p with RHeld o | RDraw o | RRead o _ | RDone o _ => gen_of o <> None | _ => True end.
Lemma inside_step s l s' : (forall t p, nth_error (rpcs s) t = Some p -> inside p) -> rstep G mt_seed mt_draw s l = Some s' ->
  forall t p, nth_error (rpcs s') t = Some p -> inside p.
Proof.
  intros H E. assert (K : forall t p', rpcs s' = upd (rpcs s) t p' -> inside p' -> forall u p, nth_error (rpcs s') u = Some p -> inside p).
  { intros t p' A B u p Hu. rewrite A in Hu. destruct (nth_upd _ _ _ _ _ Hu) as [[-> ->]|[N X]]; eauto. }
  destruct l as [t o|t]; cbn [rstep] in E.
  - unfold rcall in E. destruct (nth_error (rpcs s) t) as [[]|] eqn:P; try discriminate. injection E as <-. eapply K; [reflexivity|exact I].
  - unfold rrun in E. destruct (nth_error (rpcs s) t) as [p|] eqn:P; [|discriminate]. pose proof (H _ _ P) as Hp. destruct p as [|o|o|o|o g|o r|o r]; cbn in Hp.
    + discriminate.
    + destruct (gen_of o) as [x|] eqn:O.
      * destruct (lock s x) eqn:F; [discriminate|]. injection E as <-. eapply K; [reflexivity|]. cbn. congruence.
      * destruct o as [v| | |]; try discriminate. injection E as <-. eapply K; [reflexivity|exact I].
    + destruct o as [v| |sd'|sd']; try discriminate; injection E as <-; (eapply K; [reflexivity|]; exact Hp).
    + injection E as <-. eapply K; [reflexivity|exact Hp].
    + destruct (gen_of o) as [x|] eqn:O; [|discriminate]. destruct (mt_draw g) as [g' v]. injection E as <-. eapply K; [reflexivity|]. cbn. congruence.
    + destruct (gen_of o) as [x|] eqn:O; [|discriminate]. injection E as <-. eapply K; [reflexivity|exact I].
    + injection E as <-. eapply K; [reflexivity|exact I].
Qed.
Lemma inside_steps ls : forall s s', (forall t p, nth_error (rpcs s) t = Some p -> inside p) -> rsteps s ls = Some s' ->
  forall t p, nth_error (rpcs s') t = Some p -> inside p.
Proof.
  unfold rsteps. induction ls as [|l ls IH]; cbn [Random_model.rsteps]; intros s s' R E; [injection E as <-; exact R|].
  destruct (rstep G mt_seed mt_draw s l) as [s0|] eqn:E0; [|discriminate]. exact (IH _ _ (inside_step _ _ _ R E0) E).
Qed.

Lemma random_progress_lemma sd n ls s : rsteps (rinit sd n) ls = Some s ->
  forall t p, nth_error (rpcs s) t = Some p -> p <> RIdle -> exists u s', rstep G mt_seed mt_draw s (RRun u) = Some s'.
Proof.
  intros E t p P N. assert (H : held s) by (eapply held_steps; [|exact E]; intros x u L; discriminate).
  assert (J : inside p). { eapply inside_steps; [|exact E|exact P]. intros u q Q. apply nth_all in Q as ->. exact I. }
  destruct (ri_steps sd ls _ _ (ri_init sd n) E) as [_ _ _ Pc Lk].
  assert (C : forall o x, gen_of o = Some x -> (p = RHeld o \/ p = RDraw o \/ (exists g, p = RRead o g) \/ (exists r, p = RDone o r)) -> exists u s', rstep G mt_seed mt_draw s (RRun u) = Some s').
  { intros o x O Z. exists t. apply (can_run s t p P (Pc _ _ P)). exists x. destruct Z as [-> |[-> |[[g ->]|[r ->]]]]; cbn; rewrite O; destruct x; reflexivity. }
  destruct p as [|o|o|o|o g|o r|o r]; [congruence| | | | | |]; cbn in J.
  - destruct (gen_of o) as [x|] eqn:O.
    + destruct (lock s x) as [u|] eqn:F.
      * destruct (H _ _ F) as (q & Q & U). exists u. apply (can_run s u q Q (Pc _ _ Q)). eauto.
      * exists t. cbn [rstep]. unfold rrun. rewrite P, O, F. eauto.
    + exists t. cbn [rstep]. unfold rrun. rewrite P, O. destruct o; try discriminate. eauto.
  - destruct (gen_of o) as [x|] eqn:O; [|congruence]. eapply C; eauto.
  - destruct (gen_of o) as [x|] eqn:O; [|congruence]. eapply C; eauto.
  - destruct (gen_of o) as [x|] eqn:O; [|congruence]. eapply C; eauto.
  - destruct (gen_of o) as [x|] eqn:O; [|congruence]. eapply C; eauto.
  - exists t. cbn [rstep]. unfold rrun. rewrite P. eauto.
Qed.
End Proofs.
