From Verif Require Import Atomicable_model Atomicable_spec.

Section Proofs.
Variables (T M R : Type) (method : M -> T -> T * R) (const : M -> bool).
Hypothesis const_ok : forall m x, const m = true -> fst (method m x) = x.

Notation state := (astate T M R).
Notation pc := (apc M R).
Notation step := (astep method const).

(** the program that remains, for a thread whose guard holds the lock *)
Definition rest (p : pc) : option (use M R * program M R) :=
  match p with ABody u q => Some (u, q) | AInside u m k => Some (u, Then m k) | _ => None end.
Definition holding (p : pc) : option guard :=
  match p with ABody u _ | AInside u _ _ | AUnlock u _ => Some (with_guard u) | _ => None end.
Definition unique (p : pc) : bool := match holding p with Some Unique => true | _ => false end.
Definition shares (p : pc) : nat := match holding p with Some Shared => 1 | _ => 0 end.
Definition writing (p : pc) : bool := match rest p with Some (u, _) => match with_guard u with Unique => true | _ => false end | None => false end.
Definition use_of (p : pc) : option (use M R) :=
  match p with AIdle => None | ALock u | ABody u _ | AInside u _ _ | AUnlock u _ | ARet u _ => Some u end.
Definition aphase (t : nat) (p : pc) evs : Prop :=
  match p with
  | AIdle => thread_phase t evs NotCalled
  | ALock u | ABody u _ | AInside u _ _ => thread_phase t evs (Called u)
  | AUnlock u r | ARet u r => thread_phase t evs (Done u r)
  end.
(** shared guards: only const methods remain *)
Definition tame (p : pc) : Prop :=
  (forall u, use_of p = Some u -> guarded const u) /\ forall u q, rest p = Some (u, q) -> with_guard u = Shared -> read_only const q.

Record AI (x0 : T) (s : state) : Prop := {
  ai_owner : forall t p, nth_error (apcs s) t = Some p -> (unique p = true <-> owner s = Some t);
  ai_exists : forall t, owner s = Some t -> nth_error (apcs s) t <> None;
  ai_sharers : sharers s = number_of shares (apcs s);
  ai_either : owner s <> None -> sharers s = 0;
  ai_tame : forall t p, nth_error (apcs s) t = Some p -> tame p;
  ai_raced : araced s = false;
  ai_phase : forall t p, nth_error (apcs s) t = Some p -> aphase t p (aevents s);
  ai_none : forall t, nth_error (apcs s) t = None -> thread_phase t (aevents s) NotCalled;
  ai_seq : exists x, sequential (at_once method) x0 (aevents s) x /\
    (forall t p u q, nth_error (apcs s) t = Some p -> rest p = Some (u, q) -> forall x' r, alone method q (object s) x' r -> alone method (body u) x x' r) /\
    ((forall t p, nth_error (apcs s) t = Some p -> writing p = false) -> object s = x) }.

Lemma writing_unique p : writing p = true -> unique p = true.
Proof. unfold writing, unique. destruct p; cbn; try discriminate; destruct (with_guard u); auto. Qed.

Lemma ai_init x n : AI x (ainit x n).
Proof.
  split; cbn; try (intros; discriminate); auto.
  - intros t p H. apply nth_all in H as ->. cbn. split; discriminate.
  - rewrite number_repeat; reflexivity.
  - intros t p H. apply nth_all in H as ->. split; cbn; discriminate.
  - intros t p H. apply nth_all in H as ->. constructor.
  - constructor.
  - exists x. split; [constructor|]. split; [|reflexivity]. intros t p u q H. apply nth_all in H as ->. discriminate.
Qed.

(** with a unique guard held, nobody else holds one *)
Lemma only_owner x s t p u q : AI x s -> nth_error (apcs s) t = Some p -> unique p = true -> nth_error (apcs s) u = Some q -> holding q <> None -> u = t.
Proof.
  intros I P U Q H. pose proof (proj1 (ai_owner x s I _ _ P) U) as O. assert (Z : sharers s = 0) by (apply (ai_either x s I); congruence).
  rewrite (ai_sharers x s I) in Z. pose proof (proj1 (number_zero shares _) Z _ _ Q) as Z'.
  destruct (unique q) eqn:Uq; [apply (ai_owner x s I _ _ Q) in Uq; congruence|]. exfalso. unfold shares, unique in *.
  destruct (ai_tame x s I _ _ Q) as [G _]. destruct q as [ |v|v q|v m k|v r|v r]; cbn in *; try congruence;
    specialize (G _ eq_refl); unfold guarded in G; destruct (with_guard v); try discriminate; contradiction.
Qed.

(** a thread goes on *)
Lemma ai_go x0 s s' t p p' : AI x0 s -> nth_error (apcs s) t = Some p -> apcs s' = upd (apcs s) t p' ->
  ((owner s' = owner s /\ unique p = unique p') \/ (owner s = None /\ owner s' = Some t /\ unique p' = true) \/ (unique p = true /\ owner s' = None /\ unique p' = false)) ->
  sharers s' + shares p = sharers s + shares p' -> (owner s' <> None -> sharers s' = 0) ->
  tame p' -> araced s' = false -> aphase t p' (aevents s') -> (forall u ph, u <> t -> thread_phase u (aevents s) ph -> thread_phase u (aevents s') ph) ->
  (forall x, sequential (at_once method) x0 (aevents s) x ->
    (forall t p u q, nth_error (apcs s) t = Some p -> rest p = Some (u, q) -> forall x' r, alone method q (object s) x' r -> alone method (body u) x x' r) ->
    ((forall t p, nth_error (apcs s) t = Some p -> writing p = false) -> object s = x) ->
    exists x', sequential (at_once method) x0 (aevents s') x' /\
    (forall t p u q, nth_error (apcs s') t = Some p -> rest p = Some (u, q) -> forall y r, alone method q (object s') y r -> alone method (body u) x' y r) /\
    ((forall t p, nth_error (apcs s') t = Some p -> writing p = false) -> object s' = x')) -> AI x0 s'.
Proof.
  intros I P U Ow Sh Ei Ta Ra Ph Ot Sq. split; auto.
  - intros u q H. pose proof (ai_owner x0 s I _ _ P) as K. rewrite U in H. apply nth_upd in H as [[-> ->]|[N H]].
    + destruct Ow as [[-> L]|[(L1 & L2 & L3)|(L1 & L2 & L3)]]; rewrite ?L2, ?L3; [rewrite <- L; exact K|tauto|]. split; intro; congruence.
    + pose proof (ai_owner x0 s I _ _ H) as Ku. destruct Ow as [[-> L]|[(E1 & -> & L)|(L1 & -> & L3)]]; [exact Ku| |].
      * split; intro X; [apply Ku in X|]; congruence.
      * rewrite Ku. apply K in L1. split; congruence.
  - intros u H. rewrite U. destruct (Nat.eq_dec t u) as [<-|N]; [rewrite (nth_upd_same _ _ _ _ P); discriminate|]. rewrite nth_upd_other by exact N.
    destruct Ow as [[E L]|[(E1 & E & L)|(L1 & E & L3)]]; rewrite E in H; [apply (ai_exists x0 s I); exact H|congruence|discriminate].
  - rewrite U. pose proof (number_upd shares _ _ p' _ P) as X. rewrite <- (ai_sharers x0 s I) in X. lia.
  - intros u q H. rewrite U in H. apply nth_upd in H as [[-> ->]|[N H]]; [exact Ta|exact (ai_tame x0 s I _ _ H)].
  - intros u q H. rewrite U in H. apply nth_upd in H as [[-> ->]|[N H]]; [exact Ph|].
    pose proof (ai_phase x0 s I _ _ H) as X. destruct q; apply Ot; auto.
  - intros u H. rewrite U in H. destruct (Nat.eq_dec t u) as [<-|N]; [rewrite (nth_upd_same _ _ _ _ P) in H; discriminate|].
    rewrite nth_upd_other in H by exact N. apply Ot; [congruence|]. exact (ai_none x0 s I _ H).
  - destruct (ai_seq x0 s I) as (x & A & B & C). exact (Sq x A B C).
Qed.

(** nobody can be in a method that clashes *)
Lemma ai_alone x s t u m k : AI x s -> nth_error (apcs s) t = Some (ABody u (Then m k)) -> existsb (aclashes const m) (apcs s) = false.
Proof.
  intros I P. destruct (existsb (aclashes const m) (apcs s)) eqn:E; [|reflexivity]. exfalso.
  apply existsb_exists in E as (q & H & C). apply In_nth_error in H as [v H]. destruct q as [ |w|w q|w m' k'|w r|w r]; try discriminate. cbn in C.
  assert (N : v <> t) by congruence.
  destruct (ai_tame x s I _ _ P) as [G1 D1]. destruct (ai_tame x s I _ _ H) as [G2 D2]. specialize (G1 _ eq_refl). specialize (G2 _ eq_refl). specialize (D1 _ _ eq_refl). specialize (D2 _ _ eq_refl).
  unfold guarded in G1, G2.
  destruct (with_guard u) eqn:E1; [|destruct (with_guard w) eqn:E2|]; try contradiction.
  - assert (v = t); [|congruence]. eapply (only_owner x s t _ v _ I P); [unfold unique; cbn; rewrite E1; reflexivity|exact H|discriminate].
  - assert (t = v); [|congruence]. eapply (only_owner x s v _ t _ I H); [unfold unique; cbn; rewrite E2; reflexivity|exact P|discriminate].
  - specialize (D1 eq_refl). specialize (D2 eq_refl). inversion D1; subst. inversion D2; subst.
    repeat match goal with X : const _ = true |- _ => rewrite X in C; clear X end. discriminate.
Qed.

Ltac others := intros ? ? N X; cbn; constructor; [cbn; congruence|exact X].

(** the abstract state stays *)
Lemma seq_stays x0 s s' t p p' : AI x0 s -> nth_error (apcs s) t = Some p -> apcs s' = upd (apcs s) t p' -> object s' = object s -> writing p' = writing p ->
  (forall x, sequential (at_once method) x0 (aevents s) x -> sequential (at_once method) x0 (aevents s') x) ->
  (forall x, ((forall t p, nth_error (apcs s) t = Some p -> writing p = false) -> object s = x) -> 
     (forall u q, rest p = Some (u, q) -> forall x' r, alone method q (object s) x' r -> alone method (body u) x x' r) ->
     forall u q, rest p' = Some (u, q) -> forall x' r, alone method q (object s) x' r -> alone method (body u) x x' r) ->
  (forall x, sequential (at_once method) x0 (aevents s) x ->
    (forall t p u q, nth_error (apcs s) t = Some p -> rest p = Some (u, q) -> forall x' r, alone method q (object s) x' r -> alone method (body u) x x' r) ->
    ((forall t p, nth_error (apcs s) t = Some p -> writing p = false) -> object s = x) ->
    exists x', sequential (at_once method) x0 (aevents s') x' /\
    (forall t p u q, nth_error (apcs s') t = Some p -> rest p = Some (u, q) -> forall y r, alone method q (object s') y r -> alone method (body u) x' y r) /\
    ((forall t p, nth_error (apcs s') t = Some p -> writing p = false) -> object s' = x')).
Proof.
  intros I P U O W Sq Re x A B C. exists x. split; [auto|]. rewrite O. split.
  - intros v q u r H E. rewrite U in H. apply nth_upd in H as [[-> ->]|[N H]]; [|exact (B _ _ _ _ H E)]. eapply Re; [exact C| |exact E]. intros u' q' E'. exact (B _ _ _ _ P E').
  - intros H. apply C. intros v q Q. destruct (Nat.eq_dec v t) as [->|N].
    + rewrite P in Q. injection Q as <-. rewrite <- W. apply (H t). rewrite U. exact (nth_upd_same _ _ _ _ P).
    + apply (H v). rewrite U, nth_upd_other by congruence. exact Q.
Qed.

Lemma ai_call x0 s t u s' : AI x0 s -> guarded const u -> step s (ACall t u) = Some s' -> AI x0 s'.
Proof.
  intros I G H. cbn in H. unfold acall in H. destruct (nth_error (apcs s) t) as [p|] eqn:P; [|discriminate]. destruct p; try discriminate. injection H as <-.
  eapply ai_go; [exact I|exact P|reflexivity| | | | | | | |].
  - left. split; reflexivity.
  - reflexivity.
  - exact (ai_either x0 s I).
  - split; cbn; [intros ? [= <-]; exact G|discriminate].
  - exact (ai_raced x0 s I).
  - cbn. apply ph_call. exact (ai_phase x0 s I _ _ P).
  - others.
  - eapply (seq_stays x0 s _ t); [exact I|exact P|reflexivity|reflexivity|reflexivity| |].
    + intros x Q. constructor. exact Q.
    + cbn. discriminate.
Qed.

Lemma ai_run x0 s t s' : AI x0 s -> step s (ARun t) = Some s' -> AI x0 s'.
Proof.
  intros I H. cbn in H. unfold arun in H. destruct (nth_error (apcs s) t) as [p|] eqn:P; [|discriminate].
  pose proof (ai_phase x0 s I _ _ P) as Ph. pose proof (ai_tame x0 s I _ _ P) as [G D].
  destruct p as [ |u|u q|u m k|u r|u r]; try discriminate.
  - specialize (G _ eq_refl). assert (G' := G). unfold guarded in G'. destruct (with_guard u) eqn:W; [| |contradiction].
    + destruct (owner s) eqn:O; [discriminate|]. destruct (sharers s) eqn:K; [|discriminate]. injection H as <-.
      eapply ai_go; [exact I|exact P|reflexivity| | | | | | | |].
      * right. left. split; [exact O|]. split; [reflexivity|]. unfold unique. cbn. rewrite W. reflexivity.
      * unfold shares. cbn. rewrite W. cbn. lia.
      * reflexivity.
      * split; cbn; [intros ? [= <-]; exact G|]. intros ? ? [= <- <-]. congruence.
      * exact (ai_raced x0 s I).
      * exact Ph.
      * auto.
      * intros x A B C. exists x. split; [exact A|].
        assert (Z : forall v q, nth_error (apcs s) v = Some q -> writing q = false).
        { intros v q Q. destruct (writing q) eqn:E; [|reflexivity]. apply writing_unique in E. apply (ai_owner x0 s I _ _ Q) in E. congruence. }
        split.
        -- intros v q w z Q E. cbn in Q. apply nth_upd in Q as [[-> ->]|[N Q]]; [|exact (B _ _ _ _ Q E)]. cbn in E. injection E as <- <-. cbn. rewrite (C Z). auto.
        -- intros Y. exact (C Z).
    + destruct (owner s) eqn:O; [discriminate|]. injection H as <-.
      eapply ai_go; [exact I|exact P|reflexivity| | | | | | | |].
      * left. split; [symmetry; exact O|]. unfold unique. cbn. rewrite W. reflexivity.
      * unfold shares. cbn. rewrite W. cbn. lia.
      * cbn. congruence.
      * split; cbn; [intros ? [= <-]; exact G|]. intros ? ? [= <- <-] _. exact G'.
      * exact (ai_raced x0 s I).
      * exact Ph.
      * auto.
      * assert (Z : forall v q, nth_error (apcs s) v = Some q -> writing q = false).
        { intros v q Q. destruct (writing q) eqn:E; [|reflexivity]. apply writing_unique in E. apply (ai_owner x0 s I _ _ Q) in E. congruence. }
        eapply (seq_stays x0 s _ t); [exact I|exact P|reflexivity|reflexivity|unfold writing; cbn; rewrite W; reflexivity|auto|].
        intros x C _ v q E. cbn in E. injection E as <- <-. rewrite (C Z). auto.
  - destruct q as [r|m k].
    + injection H as <-. assert (G1 := G _ eq_refl). unfold guarded in G1.
      eapply ai_go; [exact I|exact P|reflexivity| | | | | | | |].
      * left. split; reflexivity.
      * reflexivity.
      * exact (ai_either x0 s I).
      * split; cbn; [exact G|discriminate].
      * exact (ai_raced x0 s I).
      * cbn. apply ph_do. exact Ph.
      * others.
      * intros x A B C. pose proof (B _ _ _ _ P eq_refl _ _ (al_finish T M R method r (object s))) as F.
        exists (object s). split; [econstructor; [exact A|exact F]|]. split; [|reflexivity].
        intros v q w z Q E. cbn in Q. apply nth_upd in Q as [[-> ->]|[N Q]]; [discriminate|]. cbn.
        (* another reader: the object has not changed *)
        destruct (with_guard u) eqn:W; [|destruct (writing q) eqn:Wq|contradiction].
        -- exfalso. apply N. eapply (only_owner x0 s t _ v _ I P); [unfold unique; cbn; rewrite W; reflexivity|exact Q|]. destruct q; cbn in E |- *; discriminate.
        -- exfalso. apply N. symmetry. eapply (only_owner x0 s v _ t _ I Q (writing_unique _ Wq) P). cbn. discriminate.
        -- assert (Z : forall v q, nth_error (apcs s) v = Some q -> writing q = false).
           { intros v' q' Q'. destruct (writing q') eqn:E'; [|reflexivity]. exfalso.
             assert (t = v') as -> by (eapply (only_owner x0 s v' _ t _ I Q' (writing_unique _ E') P); cbn; discriminate).
             rewrite P in Q'. injection Q' as <-. unfold writing in E'. cbn in E'. rewrite W in E'. discriminate. }
           rewrite (C Z). intros y r' L. rewrite <- (C Z) in L. exact (B _ _ _ _ Q E _ _ L).
    + injection H as <-. eapply ai_go; [exact I|exact P|reflexivity| | | | | | | |].
      * left. split; reflexivity.
      * reflexivity.
      * exact (ai_either x0 s I).
      * split; cbn; [exact G|exact D].
      * cbn. rewrite (ai_raced x0 s I), (ai_alone x0 s t u m k I P). reflexivity.
      * exact Ph.
      * auto.
      * eapply (seq_stays x0 s _ t); [exact I|exact P|reflexivity|reflexivity|reflexivity|auto|]. cbn. auto.
  - assert (G1 := G _ eq_refl). specialize (D _ _ eq_refl). assert (G2 := G1). unfold guarded in G2.
    destruct (method m (object s)) as [x1 r1] eqn:E1. injection H as <-.
    assert (RO : with_guard u = Shared -> const m = true /\ read_only const (k r1)).
    { intro W. specialize (D W). inversion D; subst. split; auto. }
    eapply ai_go; [exact I|exact P|reflexivity| | | | | | | |].
    + left. split; reflexivity.
    + reflexivity.
    + exact (ai_either x0 s I).
    + split; cbn; [exact G|]. intros ? ? [= <- <-] W. apply RO, W.
    + exact (ai_raced x0 s I).
    + exact Ph.
    + auto.
    + destruct (with_guard u) eqn:W; [| |contradiction].
      * intros x A B C. exists x. split; [exact A|]. split.
        -- intros v q w z Q E. cbn in Q. apply nth_upd in Q as [[-> ->]|[N Q]].
           ++ cbn in E. injection E as <- <-. cbn. intros y r L. apply (B _ _ _ _ P eq_refl). econstructor; eassumption.
           ++ exfalso. apply N. eapply (only_owner x0 s t _ v _ I P); [unfold unique; cbn; rewrite W; reflexivity|exact Q|]. destruct q; cbn in E |- *; discriminate.
        -- intros Z. specialize (Z t (ABody u (k r1))). cbn in Z. rewrite (nth_upd_same _ _ _ _ P) in Z. specialize (Z eq_refl). unfold writing in Z. cbn in Z. rewrite W in Z. discriminate.
      * destruct (RO eq_refl) as [Cm _]. pose proof (const_ok m (object s) Cm) as Eq. rewrite E1 in Eq. cbn in Eq. subst x1.
        eapply (seq_stays x0 s _ t); [exact I|exact P|reflexivity|reflexivity|reflexivity|auto|].
        intros x C B v q E. cbn in E. injection E as <- <-. intros y r L. apply (B _ _ eq_refl). econstructor; eassumption.
  - specialize (G _ eq_refl). assert (G' := G). unfold guarded in G'. destruct (with_guard u) eqn:W; [| |contradiction]; injection H as <-.
    + eapply ai_go; [exact I|exact P|reflexivity| | | | | | | |].
      * right. right. unfold unique. cbn. rewrite W. auto.
      * unfold shares. cbn. rewrite W. cbn. lia.
      * cbn. congruence.
      * split; cbn; [intros ? [= <-]; exact G|discriminate].
      * exact (ai_raced x0 s I).
      * exact Ph.
      * auto.
      * eapply (seq_stays x0 s _ t); [exact I|exact P|reflexivity|reflexivity|reflexivity|auto|]. cbn. discriminate.
    + assert (1 <= sharers s). { rewrite (ai_sharers x0 s I). pose proof (number_ge shares _ _ _ P) as X. unfold shares at 1 in X. cbn in X. rewrite W in X. exact X. }
      eapply ai_go; [exact I|exact P|reflexivity| | | | | | | |].
      * left. unfold unique. cbn. rewrite W. auto.
      * unfold shares. cbn. rewrite W. cbn. lia.
      * cbn. intro O. apply (ai_either x0 s I) in O. lia.
      * split; cbn; [intros ? [= <-]; exact G|discriminate].
      * exact (ai_raced x0 s I).
      * exact Ph.
      * auto.
      * eapply (seq_stays x0 s _ t); [exact I|exact P|reflexivity|reflexivity|reflexivity|auto|]. cbn. discriminate.
  - injection H as <-. eapply ai_go; [exact I|exact P|reflexivity| | | | | | | |].
    * left. split; reflexivity.
    * reflexivity.
    * exact (ai_either x0 s I).
    * split; cbn; discriminate.
    * exact (ai_raced x0 s I).
    * cbn. apply ph_ret. exact Ph.
    * others.
    * eapply (seq_stays x0 s _ t); [exact I|exact P|reflexivity|reflexivity|reflexivity| |].
      -- intros x Q. constructor. exact Q.
      -- cbn. discriminate.
Qed.

Lemma ai_reach x n s : areachable method const (guarded const) x n s -> AI x s.
Proof. induction 1; [apply ai_init|eapply ai_call; eassumption|eapply ai_run; eassumption]. Qed.

Lemma atomic_lemma x n s : areachable method const (guarded const) x n s -> linearizable (at_once method) x (aevents s) /\ araced s = false.
Proof.
  intro H. apply ai_reach in H. split; [split|apply (ai_raced x s H)].
  - destruct (ai_seq x s H) as (y & A & _). eauto.
  - intro t. destruct (nth_error (apcs s) t) as [p|] eqn:P.
    + pose proof (ai_phase x s H _ _ P) as X. destruct p; eexists; exact X.
    + eexists. exact (ai_none x s H _ P).
Qed.
Lemma quiet_lemma x n s : areachable method const (guarded const) x n s -> (forall t p, nth_error (apcs s) t = Some p -> p = AIdle) ->
  sequential (at_once method) x (aevents s) (object s).
Proof.
  intros H Q. apply ai_reach in H. destruct (ai_seq x s H) as (y & A & _ & C). rewrite C; [exact A|]. intros t p P. rewrite (Q _ _ P). reflexivity.
Qed.

(** a thread that holds the lock can go on to the end by itself *)
Definition runs (t : nat) (k : nat) : list (alabel M R) := repeat (ARun t) k.
Lemma asteps_app s l1 l2 : asteps method const s (l1 ++ l2) = match asteps method const s l1 with Some s' => asteps method const s' l2 | None => None end.
Proof. revert s; induction l1 as [|l l1 IH]; intros s; cbn [app asteps]; [reflexivity|]. destruct (step s l); [apply IH|reflexivity]. Qed.
Lemma upd_upd (l : list pc) i x y : upd (upd l i x) i y = upd l i y.
Proof. revert i; induction l as [|z l IH]; intros [|i]; cbn; f_equal; auto. Qed.

Lemma finish_alone t q : forall s u, nth_error (apcs s) t = Some (ABody u q) ->
  exists k s', asteps method const s (runs t k) = Some s' /\ apcs s' = upd (apcs s) t AIdle.
Proof.
  induction q as [r|m k IH]; intros s u P.
  - destruct (with_guard u) eqn:W;
    (exists 3; eexists; cbn [runs repeat asteps astep]; unfold arun at 1; rewrite P; unfold arun at 1; cbn [aemit ago apcs]; rewrite (nth_upd_same _ _ _ _ P), W;
     unfold arun; cbn [aemit ago aset apcs]; rewrite upd_upd, (nth_upd_same _ _ _ _ P); split; [reflexivity|]; cbn; rewrite !upd_upd; reflexivity).
  - destruct (method m (object s)) as [x1 r1] eqn:E.
    set (s1 := ago (arace s (existsb (aclashes const m) (apcs s))) t (AInside u m k)).
    set (s2 := ago (aset s1 x1 (owner s1) (sharers s1)) t (ABody u (k r1))).
    destruct (IH r1 s2 u) as (n & s' & A & B).
    { unfold s2, s1. cbn. rewrite upd_upd. exact (nth_upd_same _ _ _ _ P). }
    exists (S (S n)), s'. split; [|rewrite B; unfold s2, s1; cbn; rewrite !upd_upd; reflexivity].
    cbn [runs repeat asteps astep]. unfold arun at 1. rewrite P. fold s1. unfold arun at 1.
    replace (nth_error (apcs s1) t) with (Some (AInside u m k)) by (symmetry; unfold s1; cbn; exact (nth_upd_same _ _ _ _ P)).
    change (object s1) with (object s). rewrite E. fold s2. exact A.
Qed.

Definition inside (p : pc) : nat := match p with ABody _ _ | AInside _ _ _ | AUnlock _ _ | ARet _ _ => 1 | _ => 0 end.
Lemma finish_inside t s p : nth_error (apcs s) t = Some p -> inside p = 1 -> exists k s', asteps method const s (runs t k) = Some s' /\ apcs s' = upd (apcs s) t AIdle.
Proof.
  intros P H. destruct p as [ |u|u q|u m k|u r|u r]; try discriminate.
  - eapply finish_alone; eassumption.
  - destruct (method m (object s)) as [x1 r1] eqn:E. set (s2 := ago (aset s x1 (owner s) (sharers s)) t (ABody u (k r1))).
    destruct (finish_alone t (k r1) s2 u) as (n & s' & A & B); [unfold s2; cbn; exact (nth_upd_same _ _ _ _ P)|].
    exists (S n), s'. split; [|rewrite B; unfold s2; cbn; rewrite upd_upd; reflexivity]. cbn [runs repeat asteps astep]. unfold arun at 1. rewrite P, E. exact A.
  - destruct (with_guard u) eqn:W;
    (exists 2; eexists; cbn [runs repeat asteps astep]; unfold arun at 1; rewrite P, W;
     unfold arun; cbn [aemit ago aset apcs]; rewrite (nth_upd_same _ _ _ _ P); split; [reflexivity|]; cbn; rewrite !upd_upd; reflexivity).
  - exists 1. eexists. cbn [runs repeat asteps astep]. unfold arun at 1. rewrite P. split; reflexivity.
Qed.
Lemma reach_steps ok x n s ls : forall s', areachable method const ok x n s -> (forall l, In l ls -> exists t, l = ARun t) -> asteps method const s ls = Some s' -> areachable method const ok x n s'.
Proof.
  revert s; induction ls as [|l ls IH]; cbn [asteps]; intros s s' Re A H; [injection H as <-; exact Re|]. destruct (A l (or_introl eq_refl)) as [t ->].
  destruct (step s (ARun t)) as [s1|] eqn:E; [|discriminate]. eapply IH; [eapply ar_run; eassumption| |exact H]. intros l' L. apply A. right. exact L.
Qed.
Lemma runs_in t k l : In l (runs t k) -> exists t, l = ARun t.
Proof. intro H. apply repeat_spec in H. eauto. Qed.

Lemma all_out x n : forall j s, number_of inside (apcs s) <= j -> areachable method const (guarded const) x n s ->
  exists ls s', (forall l, In l ls -> exists t, l = ARun t) /\ asteps method const s ls = Some s' /\ number_of inside (apcs s') = 0 /\
    (forall t u, nth_error (apcs s) t = Some (ALock u) -> nth_error (apcs s') t = Some (ALock u)) /\
    (forall t, nth_error (apcs s) t = Some AIdle -> nth_error (apcs s') t = Some AIdle) /\
    length (apcs s') = length (apcs s).
Proof.
  induction j as [|j IH]; intros s L Re.
  - exists [], s. cbn. repeat split; auto; [contradiction|lia].
  - destruct (Nat.eq_dec (number_of inside (apcs s)) 0) as [Z|Z]; [exists [], s; cbn; repeat split; auto; contradiction|].
    assert (exists t p, nth_error (apcs s) t = Some p /\ inside p = 1) as (t & p & P & E).
    { clear -Z. induction (apcs s) as [|q l IHl]; [exfalso; apply Z; reflexivity|]. destruct (inside q) eqn:E.
      - destruct IHl as (t & p & P & K); [change (inside q + number_of inside l <> 0) in Z; rewrite E in Z; exact Z|]. exists (S t), p. auto.
      - exists 0, q. split; [reflexivity|]. destruct q; cbn in *; congruence. }
    destruct (finish_inside t s p P E) as (k & s1 & A & B).
    pose proof (reach_steps _ _ _ _ _ _ Re (runs_in t k) A) as R1.
    destruct (IH s1) as (ls & s' & C1 & C2 & C3 & C4 & C5 & C6); [| exact R1 |].
    { rewrite B. pose proof (number_upd inside _ _ (AIdle : pc) _ P) as X. cbn in X. lia. }
    exists (runs t k ++ ls), s'. split; [intros l H; apply in_app_or in H as [H|H]; [exact (runs_in _ _ _ H)|auto]|].
    split; [rewrite asteps_app, A; exact C2|]. split; [exact C3|]. split; [|split].
    + intros v u Q. apply C4. rewrite B. rewrite nth_upd_other; [exact Q|]. intros <-. rewrite P in Q. injection Q as ->. discriminate.
    + intros v Q. apply C5. rewrite B. destruct (Nat.eq_dec t v) as [<-|N]; [exact (nth_upd_same _ _ _ _ P)|]. rewrite nth_upd_other by exact N. exact Q.
    + rewrite C6, B. apply upd_length.
Qed.

Lemma lock_returns x n s t u : areachable method const (guarded const) x n s -> nth_error (apcs s) t = Some (ALock u) ->
  exists ls s', (forall l, In l ls -> exists t, l = ARun t) /\ asteps method const s ls = Some s' /\ nth_error (apcs s') t = Some AIdle.
Proof.
  intros Re P. destruct (all_out x n _ s (le_n _) Re) as (ls & s1 & A & B & C & D & _). specialize (D _ _ P).
  pose proof (reach_steps _ _ _ _ _ _ Re A B) as R1. pose proof (ai_reach _ _ _ R1) as I.
  assert (Z : forall v q, nth_error (apcs s1) v = Some q -> holding q = None).
  { intros v q Q. pose proof (proj1 (number_zero inside _) C _ _ Q) as X. destruct q; cbn in *; congruence. }
  assert (O : owner s1 = None).
  { destruct (owner s1) as [o|] eqn:O; [|reflexivity]. exfalso. pose proof (ai_exists x s1 I _ O) as E. destruct (nth_error (apcs s1) o) as [q|] eqn:Q; [|congruence].
    apply (ai_owner x s1 I _ _ Q) in O. unfold unique in O. rewrite (Z _ _ Q) in O. discriminate. }
  assert (K : sharers s1 = 0). { rewrite (ai_sharers x s1 I). apply number_zero. intros v q Q. unfold shares. rewrite (Z _ _ Q). reflexivity. }
  destruct (ai_tame x s1 I _ _ D) as [G _]. specialize (G _ eq_refl). unfold guarded in G.
  assert (exists s2, step s1 (ARun t) = Some s2 /\ nth_error (apcs s2) t = Some (ABody u (body u))) as (s2 & E2 & P2).
  { cbn. unfold arun. rewrite D, O, K. destruct (with_guard u); [| |contradiction]; eexists; (split; [reflexivity|]); cbn; exact (nth_upd_same _ _ _ _ D). }
  destruct (finish_alone t (body u) s2 u P2) as (k & s3 & E3 & P3).
  exists (ls ++ ARun t :: runs t k), s3. split; [|split].
  - intros l H. apply in_app_or in H as [H|[<-|H]]; [auto|eauto|exact (runs_in _ _ _ H)].
  - rewrite asteps_app, B. cbn [asteps]. rewrite E2. exact E3.
  - rewrite P3. exact (nth_upd_same _ _ _ _ P2).
Qed.
Lemma returns_lemma x n s t p : areachable method const (guarded const) x n s -> nth_error (apcs s) t = Some p ->
  exists ls s', (forall l, In l ls -> exists t, l = ARun t) /\ asteps method const s ls = Some s' /\ nth_error (apcs s') t = Some AIdle.
Proof.
  intros Re P. destruct (inside p) eqn:E.
  - destruct p as [ |u|u q|u m k|u r|u r]; try discriminate; [|eapply lock_returns; eassumption]. exists [], s. split; [contradiction|]. split; [reflexivity|exact P].
  - destruct (finish_inside t s p P) as (k & s' & A & B); [destruct p; cbn in *; congruence|]. exists (runs t k), s'. split; [apply runs_in|]. split; [exact A|].
    rewrite B. exact (nth_upd_same _ _ _ _ P).
Qed.
End Proofs.
