From Verif Require Import Singleton_model Singleton_spec.

Section Proofs.
Variable A : Type.
Variable constructible : option A -> bool.
Let ssteps := ssteps A constructible.
Let sstep := sstep A constructible.
Let single_spec := single_spec A constructible.

Definition sphase (t : nat) (p : single_pc A) evs : Prop :=
  match p with
  | SIdle => thread_phase t evs NotCalled
  | SLock o | STest o | SMake o => thread_phase t evs (Called o)
  | SDone o r | SRet o r => thread_phase t evs (Done o r)
  end.
Definition sholds (p : single_pc A) : bool := match p with STest _ | SMake _ | SDone _ _ => true | _ => false end.

Record SI (s : sstate A) : Prop := {
  si_seq : sequential single_spec None (sevents s) (the_ptr s);
  si_phase : forall t p, nth_error (spcs s) t = Some p -> sphase t p (sevents s);
  si_none : forall t, nth_error (spcs s) t = None -> thread_phase t (sevents s) NotCalled;
  si_make : forall t o, nth_error (spcs s) t = Some (SMake o) -> the_ptr s = None /\ o <> Get false;
  si_lock : forall t p, nth_error (spcs s) t = Some p -> (sholds p = true <-> mtx s = Some t);
  si_owner : forall t, mtx s = Some t -> nth_error (spcs s) t <> None }.

Lemma si_init n : SI (sinit A n).
Proof.
  split; cbn; try (intros; discriminate).
  - constructor.
  - intros t p H. apply nth_all in H as ->. constructor.
  - constructor.
  - intros t o H. apply nth_all in H. discriminate.
  - intros t p H. apply nth_all in H as ->. cbn. split; discriminate.
Qed.

Lemma sphases s t p p' evs : SI s -> nth_error (spcs s) t = Some p -> sphase t p' evs ->
  (forall u ph, u <> t -> thread_phase u (sevents s) ph -> thread_phase u evs ph) ->
  (forall u q, nth_error (upd (spcs s) t p') u = Some q -> sphase u q evs) /\ (forall u, nth_error (upd (spcs s) t p') u = None -> thread_phase u evs NotCalled).
Proof.
  intros I P Q O. split.
  - intros u q Hu. destruct (nth_upd _ _ _ _ _ Hu) as [[-> ->]|[N X]]; [exact Q|]. pose proof (si_phase s I _ _ X) as B. destruct q; cbn in *; apply O; auto.
  - intros u Hu. destruct (Nat.eq_dec t u) as [<-|N]; [rewrite (nth_upd_same _ _ _ _ P) in Hu; discriminate|]. rewrite nth_upd_other in Hu by exact N. apply O; [auto|]. apply (si_none s I). exact Hu.
Qed.

(** the general form of a step: thread t goes from p to p', maybe with an event, an effect or a change of the mutex *)
Lemma si_go s s' t p p' : SI s -> nth_error (spcs s) t = Some p -> spcs s' = upd (spcs s) t p' ->
  (sequential single_spec None (sevents s') (the_ptr s')) ->
  sphase t p' (sevents s') ->
  (forall u ph, u <> t -> thread_phase u (sevents s) ph -> thread_phase u (sevents s') ph) ->
  (the_ptr s' = the_ptr s \/ sholds p = true) ->
  (forall o, p' = SMake o -> the_ptr s' = None /\ o <> Get false) ->
  ((mtx s' = mtx s /\ sholds p = sholds p') \/ (mtx s = None /\ mtx s' = Some t /\ sholds p' = true) \/ (sholds p = true /\ mtx s' = None /\ sholds p' = false)) ->
  SI s'.
Proof.
  intros I P U Q Ph O T M L. destruct (sphases s t p p' _ I P Ph O) as [B C]. pose proof (si_lock s I) as K.
  split; auto; try (rewrite U; assumption).
  - rewrite U. intros u o Hu. destruct (nth_upd _ _ _ _ _ Hu) as [[-> X]|[N X]]; [apply M; congruence|].
    destruct (si_make s I _ _ X) as [H1 H2]. split; [|exact H2]. destruct T as [T|T]; [congruence|].
    apply (K _ _ P) in T. pose proof (proj1 (K _ _ X) eq_refl). congruence.
  - rewrite U. intros u q Hu. destruct (nth_upd _ _ _ _ _ Hu) as [[-> ->]|[N X]].
    + destruct L as [[L1 L2]|[(L1 & L2 & L3)|(L1 & L2 & L3)]]; rewrite ?L1, ?L2, ?L3; try (split; congruence).
      rewrite <- L2. apply K. exact P.
    + destruct L as [[L1 L2]|[(L1 & L2 & L3)|(L1 & L2 & L3)]].
      * rewrite L1. apply K. exact X.
      * rewrite L2. rewrite (K _ _ X), L1. split; congruence.
      * rewrite L2. rewrite (K _ _ X). pose proof (proj1 (K _ _ P) L1). split; congruence.
  - intros u Hu Z. rewrite U in Z. apply nth_error_None in Z. rewrite upd_length in Z. apply nth_error_None in Z.
    destruct L as [[L1 L2]|[(L1 & L2 & L3)|(L1 & L2 & L3)]]; try congruence.
    apply (si_owner s I u); [congruence|exact Z].
Qed.

Ltac same := intros u ph _ H; exact H.
Ltac other := intros u ph N H; apply ph_other; [cbn; congruence|exact H].

Lemma si_step s l s' : SI s -> sstep s l = Some s' -> SI s'.
Proof.
  intros I E. destruct l as [t o|t]; cbn [Singleton_model.sstep sstep] in E; unfold sstep, Singleton_model.sstep in E.
  - unfold scall in E. destruct (terminated s); [discriminate|]. destruct (nth_error (spcs s) t) as [[]|] eqn:P; try discriminate. injection E as <-.
    pose proof (si_phase s I _ _ P) as Pt. cbn in Pt.
    eapply (si_go s); [exact I|exact P|reflexivity| | | |left; reflexivity|discriminate|left; split; reflexivity]; cbn.
    + constructor. apply I.
    + constructor; exact Pt.
    + other.
  - unfold srun in E. destruct (terminated s); [discriminate|]. destruct (nth_error (spcs s) t) as [p|] eqn:P; [|discriminate].
    pose proof (si_phase s I _ _ P) as Pt. destruct p as [|o|o|o|o r|o r]; cbn [sphase] in Pt.
    + discriminate.
    + destruct (mtx s) eqn:F; [discriminate|]. injection E as <-.
      eapply (si_go s); [exact I|exact P|reflexivity| | | |left; reflexivity|discriminate|right; left; repeat split; exact F]; cbn.
      * apply I.
      * exact Pt.
      * same.
    + assert (Ef : forall r, single_spec (the_ptr s) o (the_ptr s) r -> SI (seffect A s t o r)).
      { intros r Sp. eapply (si_go s); [exact I|exact P|reflexivity| | | |left; reflexivity|discriminate|left; split; reflexivity]; cbn.
        - econstructor; [apply I|exact Sp].
        - constructor; exact Pt.
        - other. }
      assert (Mk : the_ptr s = None -> o <> Get false -> SI (sgo A s t (mtx s) (SMake o))).
      { intros Z Y. eapply (si_go s); [exact I|exact P|reflexivity| | | |left; reflexivity| |left; split; reflexivity]; cbn.
        - apply I.
        - exact Pt.
        - same.
        - intros o' X. injection X as <-. auto. }
      destruct o as [a|c], (the_ptr s) as [i|] eqn:Ep.
      * injection E as <-. apply Ef. constructor.
      * injection E as <-. apply Mk; [reflexivity|discriminate].
      * injection E as <-. apply Ef. constructor.
      * destruct c; cbn [negb] in E; injection E as <-; [apply Mk; [reflexivity|discriminate]|apply Ef; constructor].
    + destruct (si_make s I _ _ P) as [Z Y]. destruct (constructible (arguments A o)) eqn:Co.
      * injection E as <-. eapply (si_go s); [exact I|exact P|reflexivity| | | |right; reflexivity|discriminate|left; split; reflexivity]; cbn.
        -- econstructor; [apply I|]. rewrite Z. destruct o as [a|[]]; cbn in *; try (constructor; auto; fail). congruence.
        -- constructor; exact Pt.
        -- other.
      * destruct o as [a|c]; injection E as <-; (eapply (si_go s); [exact I|exact P|reflexivity| | | |left; reflexivity|discriminate|left; split; reflexivity]; cbn;
        [econstructor; [apply I|]; rewrite Z; cbn in Co|constructor; exact Pt|other]).
        -- constructor. exact Co.
        -- destruct c; [constructor; exact Co|congruence].
    + injection E as <-. eapply (si_go s); [exact I|exact P|reflexivity| | | |left; reflexivity|discriminate|right; right; repeat split; reflexivity]; cbn.
      * apply I.
      * exact Pt.
      * same.
    + injection E as <-. eapply (si_go s); [exact I|exact P|reflexivity| | | |left; reflexivity|discriminate|left; split; reflexivity]; cbn.
      * constructor. apply I.
      * eapply ph_ret; exact Pt.
      * other.
Qed.

Lemma si_steps ls : forall s s', SI s -> ssteps s ls = Some s' -> SI s'.
Proof.
  unfold ssteps. induction ls as [|l ls IH]; cbn [Singleton_model.ssteps]; intros s s' R E; [injection E as <-; exact R|].
  destruct (Singleton_model.sstep A constructible s l) as [s0|] eqn:E0; [|discriminate]. exact (IH _ _ (si_step _ _ _ R E0) E).
Qed.

Lemma single_linear_lemma n ls s : ssteps (sinit A n) ls = Some s -> linearizable single_spec None (sevents s).
Proof.
  intro E. pose proof (si_steps ls _ _ (si_init n) E) as I. split; [exists (the_ptr s); apply I|].
  intro t. destruct (nth_error (spcs s) t) as [p|] eqn:P; [|exists NotCalled; exact (si_none s I _ P)].
  pose proof (si_phase s I _ _ P) as H. destruct p; cbn in H; eauto.
Qed.

(** consequences for what is returned *)
Lemma ret_done evs : forall t o r ph, thread_phase (Op := single_op A) (Res := single_res A) t evs ph -> In (LRet t o r) evs -> In (LDo t o r) evs.
Proof.
  assert (G : forall evs t ph, thread_phase (Op := single_op A) (Res := single_res A) t evs ph ->
    (forall o r, In (LRet t o r) evs -> In (LDo t o r) evs) /\ match ph with Done o r => In (LDo t o r) evs | _ => True end).
  { clear. intros evs t ph H. induction H as [|e evs ph N H [IH1 IH2]|o evs H [IH1 IH2]|o r evs H [IH1 IH2]|o r evs H [IH1 IH2]].
    - split; [intros o r []|exact I].
    - split; [|destruct ph; cbn; auto]. intros o r [->|X]; [cbn in N; congruence|right; auto].
    - split; [|exact I]. intros o' r [X|X]; [discriminate|right; auto].
    - split; [|left; reflexivity]. intros o' r' [X|X]; [discriminate|right; auto].
    - split; [|exact I]. intros o' r' [X|X]; [injection X as <- <-; right; exact IH2|right; auto]. }
  intros t o r ph H. apply (proj1 (G _ _ _ H)).
Qed.

Lemma seq_instance evs st : sequential single_spec None evs st ->
  (forall t o i, In (LDo t o (RInstance (Some i))) evs -> st = Some i) /\
  (forall t a, In (LDo t (Initialize a) (RBool true)) evs -> exists i, st = Some i /\ made_with i = Some a) /\
  (st = None -> forall t a, ~ In (LDo t (Initialize a) (RBool true)) evs).
Proof.
  induction 1 as [|t o evs s H IH|t o r evs s s' H (IH1 & IH2 & IH3) Sp|t o r evs s H IH].
  - split; [intros t o i []|]. split; [intros t a []|intros _ t a []].
  - destruct IH as (IH1 & IH2 & IH3). repeat split.
    + intros t' o' i [X|X]; [discriminate|eauto].
    + intros t' a [X|X]; [discriminate|eauto].
    + intros Z t' a [X|X]; [discriminate|eapply IH3; eauto].
  - assert (K : s = None \/ s' = s) by (inversion Sp; auto). repeat split.
    + intros t' o' i [X|X].
      * injection X as <- <- ->. inversion Sp; reflexivity.
      * specialize (IH1 _ _ _ X). destruct K; congruence.
    + intros t' a [X|X].
      * injection X as <- -> ->. inversion Sp; subst. eauto.
      * destruct (IH2 _ _ X) as (i & Hi & Ha). exists i. split; [destruct K; congruence|exact Ha].
    + intros Z t' a [X|X].
      * injection X as <- -> ->. inversion Sp; subst; discriminate.
      * destruct (IH2 _ _ X) as (i & Hi & Ha). destruct K; congruence.
  - destruct IH as (IH1 & IH2 & IH3). repeat split.
    + intros t' o' i [X|X]; [discriminate|eauto].
    + intros t' a [X|X]; [discriminate|eauto].
    + intros Z t' a [X|X]; [discriminate|eapply IH3; eauto].
Qed.

Lemma one_instance_lemma n ls s : ssteps (sinit A n) ls = Some s ->
  (forall i j, obtained i (sevents s) -> obtained j (sevents s) -> i = j) /\
  (forall i a t, obtained i (sevents s) -> initialized_by a t (sevents s) -> made_with i = Some a) /\
  (forall a b t u, initialized_by a t (sevents s) -> initialized_by b u (sevents s) -> a = b).
Proof.
  intro E. destruct (single_linear_lemma n ls s E) as [[st Sq] Ph].
  assert (D : forall t o r, In (LRet t o r) (sevents s) -> In (LDo t o r) (sevents s)).
  { intros t o r H. destruct (Ph t) as [ph X]. eapply ret_done; eauto. }
  destruct (seq_instance _ _ Sq) as (G1 & G2 & _). repeat split.
  - intros i j (t & o & X) (u & o' & Y). apply D in X, Y. apply G1 in X, Y. congruence.
  - intros i a t (u & o & X) Y. apply D in X, Y. apply G1 in X. destruct (G2 _ _ Y) as (j & Hj & Ha). congruence.
  - intros a b t u X Y. apply D in X, Y. destruct (G2 _ _ X) as (i & Hi & Ha), (G2 _ _ Y) as (j & Hj & Hb). congruence.
Qed.

(** at most one initialisation succeeds *)
Definition won (o : single_op A) (r : single_res A) : nat := match o, r with Initialize _, RBool true => 1 | _, _ => 0 end.
Definition winning (p : single_pc A) : nat := match p with SDone o r | SRet o r => won o r | _ => 0 end.
Fixpoint wins (evs : list (lev (single_op A) (single_res A))) : nat :=
  match evs with
  | LDo _ o r :: evs' => won o r + wins evs'
  | _ :: evs' => wins evs'
  | [] => 0
  end.
Lemma wins_spec evs st : sequential single_spec None evs st -> wins evs = match st with Some i => match made_with i with Some _ => 1 | None => 0 end | None => 0 end.
Proof.
  induction 1 as [|t o evs s H IH|t o r evs s s' H IH Sp|t o r evs s H IH]; cbn; auto.
  inversion Sp; subst; cbn; rewrite ?IH; try reflexivity.
  - match goal with H : made_with _ = Some _ |- _ => rewrite H end. reflexivity.
  - match goal with H : made_with _ = None |- _ => rewrite H end. reflexivity.
Qed.

Definition balance (s : sstate A) : Prop := successes (sevents s) + number_of winning (spcs s) = wins (sevents s).
Lemma balance_step s l s' : balance s -> sstep s l = Some s' -> balance s'.
Proof.
  unfold balance. intros B E.
  assert (K : forall t p p' s1, nth_error (spcs s) t = Some p -> spcs s1 = upd (spcs s) t p' ->
    (successes (sevents s1) + winning p' + wins (sevents s) = wins (sevents s1) + successes (sevents s) + winning p) ->
    successes (sevents s1) + number_of winning (spcs s1) = wins (sevents s1)).
  { intros t p p' s1 P U H. rewrite U. pose proof (number_upd winning _ _ p' _ P). lia. }
  destruct l as [t o|t]; unfold sstep, Singleton_model.sstep in E.
  - unfold scall in E. destruct (terminated s); [discriminate|]. destruct (nth_error (spcs s) t) as [[]|] eqn:P; try discriminate. injection E as <-.
    eapply K; [exact P|reflexivity|]. cbn. lia.
  - unfold srun in E. destruct (terminated s); [discriminate|]. destruct (nth_error (spcs s) t) as [p|] eqn:P; [|discriminate].
    destruct p as [|o|o|o|o r|o r].
    + discriminate.
    + destruct (mtx s) eqn:F; [discriminate|]. injection E as <-. eapply K; [exact P|reflexivity|]. cbn. lia.
    + destruct o as [a|c], (the_ptr s) as [i|] eqn:Ep; try (injection E as <-; eapply K; [exact P|reflexivity|]; cbn; lia).
      destruct c; cbn [negb] in E; injection E as <-; (eapply K; [exact P|reflexivity|]; cbn; lia).
    + destruct (constructible (arguments A o)).
      * injection E as <-. eapply K; [exact P|reflexivity|]. destruct o; cbn; lia.
      * destruct o; injection E as <-; (eapply K; [exact P|reflexivity|]; cbn; lia).
    + injection E as <-. eapply K; [exact P|reflexivity|]. cbn. lia.
    + injection E as <-. eapply K; [exact P|reflexivity|]. cbn. destruct o as [a|c]; [|cbn; lia]. destruct r as [[]| | |]; cbn; lia.
Qed.

Lemma balance_steps ls : forall s s', balance s -> ssteps s ls = Some s' -> balance s'.
Proof.
  unfold ssteps. induction ls as [|l ls IH]; cbn [Singleton_model.ssteps]; intros s s' R E; [injection E as <-; exact R|].
  destruct (Singleton_model.sstep A constructible s l) as [s0|] eqn:E0; [|discriminate]. exact (IH _ _ (balance_step _ _ _ R E0) E).
Qed.

Lemma single_success_lemma n ls s : ssteps (sinit A n) ls = Some s -> successes (sevents s) <= 1.
Proof.
  intro E. assert (B : balance s). { eapply balance_steps; [|exact E]. unfold balance. cbn. apply number_repeat. reflexivity. }
  pose proof (si_steps ls _ _ (si_init n) E) as I. pose proof (wins_spec _ _ (si_seq s I)) as W. unfold balance in B.
  destruct (the_ptr s) as [i|]; [destruct (made_with i)|]; lia.
Qed.

(** no deadlock *)
Lemma single_progress_lemma n ls s : ssteps (sinit A n) ls = Some s -> terminated s = false ->
  forall t p, nth_error (spcs s) t = Some p -> p <> SIdle -> exists u s', sstep s (SRun u) = Some s'.
Proof.
  intros E T t p P N. pose proof (si_steps ls _ _ (si_init n) E) as I. unfold sstep, Singleton_model.sstep, srun. rewrite T.
  assert (C : forall u q, nth_error (spcs s) u = Some q -> q <> SIdle -> (forall o, q <> SLock o) -> exists s', 
    match nth_error (spcs s) u with
    | Some (SLock o) => match mtx s with None => Some (sgo A s u (Some u) (STest o)) | Some _ => None end
    | Some (STest o) =>
        match o, the_ptr s with
        | Get create, Some i => Some (seffect A s u o (RInstance (Some i)))
        | Get create, None => if negb create then Some (seffect A s u o (RInstance None)) else Some (sgo A s u (mtx s) (SMake o))
        | Initialize a, Some i => Some (seffect A s u o (RBool false))
        | Initialize a, None => Some (sgo A s u (mtx s) (SMake o))
        end
    | Some (SMake o) =>
        if constructible (arguments A o) then
          let i := {| address := next_address s; made_with := arguments A o |} in
          Some (seffect A (sstore A s i) u o (match o with Initialize _ => RBool true | Get _ => RInstance (Some i) end))
        else match o with
             | Initialize _ => Some (seffect A s u o RThrown)
             | Get _ => Some (sterminate A (seffect A s u o RTerminate))
             end
    | Some (SDone o r) => Some (sgo A s u None (SRet o r))
    | Some (SRet o r) => Some (semit A (sgo A s u (mtx s) SIdle) (LRet u o r))
    | _ => None
    end = Some s').
  { intros u q Q N1 N2. rewrite Q. destruct q as [|o|o|o|o r|o r]; [congruence|destruct (N2 o); reflexivity| | | |]; eauto.
    - destruct o as [a|[]], (the_ptr s); cbn; eauto.
    - destruct (constructible (arguments A o)), o; eauto. }
  destruct p as [|o|o|o|o r|o r]; [congruence| | | | |]; try (exists t; eapply C; [exact P|discriminate|discriminate]).
  destruct (mtx s) as [u|] eqn:M.
  - destruct (nth_error (spcs s) u) as [q|] eqn:Q; [|destruct (si_owner s I u M Q)].
    pose proof (proj2 (si_lock s I _ _ Q) M) as H. exists u. try rewrite M in C. eapply C; [exact Q| |]; destruct q; discriminate.
  - exists t. rewrite P. eauto.
Qed.
End Proofs.

Lemma init_refute : exists x1 i, init_get x1 = Some i /\ init_alive x1 i /\
  init_get (init_initialize x1) <> Some i /\ ~ init_alive (init_initialize x1) i.
Proof. exists (init_initialize init_new), 0. repeat split; cbn; try discriminate; unfold init_alive; cbn; auto. intros [H|[]]; discriminate. Qed.
