From Verif Require Import DBQueue_model DBQueue_spec.

(** * the invariant of any use *)
Definition holds_fg (p : q_pc) : bool :=
  match p with QLockB o | QIn o | QHalf o | QUnlockB o _ => locks_fg o | QUnlockF _ _ => true | _ => false end.
Definition holds_bg (p : q_pc) : bool := match p with QIn o | QHalf o => locks_bg o | QUnlockB _ _ => true | _ => false end.
Definition formed (p : q_pc) : Prop :=
  match p with
  | QLockF o | QUnlockF o _ => locks_fg o = true
  | QLockB o | QUnlockB o _ => locks_bg o = true
  | _ => True
  end.
Definition qphase (t : nat) (p : q_pc) evs : Prop :=
  match p with
  | QIdle => thread_phase t evs NotCalled
  | QLockF o | QLockB o | QIn o | QHalf o => thread_phase t evs (Called o)
  | QUnlockB o r | QUnlockF o r | QRet o r => thread_phase t evs (Done o r)
  end.

Record QI (s : qstate) : Prop := {
  qi_ptr : fg s <> bg s;
  qi_fg : forall t p, nth_error (qpcs s) t = Some p -> (holds_fg p = true <-> fg_mutex s = Some t);
  qi_bg : forall t p, nth_error (qpcs s) t = Some p -> (holds_bg p = true <-> bg_mutex s = Some t);
  qi_fg_owner : forall t, fg_mutex s = Some t -> nth_error (qpcs s) t <> None;
  qi_bg_owner : forall t, bg_mutex s = Some t -> nth_error (qpcs s) t <> None;
  qi_formed : forall t p, nth_error (qpcs s) t = Some p -> formed p;
  qi_raced : raced s = false;
  qi_seq : sequential q_spec ([], []) (qevents s) (to_read s, to_swap s);
  qi_phase : forall t p, nth_error (qpcs s) t = Some p -> qphase t p (qevents s);
  qi_none : forall t, nth_error (qpcs s) t = None -> thread_phase t (qevents s) NotCalled }.

Lemma qi_init n : QI (qinit n).
Proof.
  split; cbn; try (intros; discriminate); auto.
  - intros t p H. apply nth_all in H as ->. cbn. split; discriminate.
  - intros t p H. apply nth_all in H as ->. cbn. split; discriminate.
  - intros t p H. apply nth_all in H as ->. exact I.
  - constructor.
  - intros t p H. apply nth_all in H as ->. constructor.
  - constructor.
Qed.

Lemma perform_fields s o : qpcs (fst (perform s o)) = qpcs s /\ fg_mutex (fst (perform s o)) = fg_mutex s /\ bg_mutex (fst (perform s o)) = bg_mutex s /\
  raced (fst (perform s o)) = raced s /\ qevents (fst (perform s o)) = qevents s.
Proof. destruct o; cbn; try (destruct (elems _)); cbn; auto. Qed.
Lemma get_put s w q : get (put s w q) w = q.
Proof. destruct w; reflexivity. Qed.
Lemma get_put_other s w w' q : w <> w' -> get (put s w q) w' = get s w'.
Proof. destruct w, w'; cbn; intro; congruence. Qed.
Lemma to_read_get s : to_read s = elems (get s (fg s)).
Proof. unfold to_read, get. destruct (fg s); reflexivity. Qed.
Lemma to_swap_get s : to_swap s = elems (get s (bg s)).
Proof. unfold to_swap, get. destruct (bg s); reflexivity. Qed.

Lemma perform_ok s o : fg s <> bg s ->
  fg (fst (perform s o)) <> bg (fst (perform s o)) /\
  q_spec (to_read s, to_swap s) o (to_read (fst (perform s o)), to_swap (fst (perform s o))) (snd (perform s o)).
Proof.
  intro D. rewrite !to_read_get, !to_swap_get.
  destruct o; cbn [perform].
  - cbn [fst snd]. split; [cbn; congruence|]. cbn [point fg bg put]. 
    change (get (point ?x ?a ?b) ?w) with (get x w). rewrite get_put, get_put_other by exact D. cbn. constructor.
  - cbn [fst snd]. split; [exact D|]. change (fg (put ?x ?w ?q)) with (fg x). change (bg (put ?x ?w ?q)) with (bg x).
    rewrite get_put, get_put_other by congruence. cbn. constructor.
  - destruct (elems (get s (fg s))) as [|x l] eqn:E; cbn [fst snd]; rewrite E; split; auto; constructor; auto.
  - destruct (elems (get s (fg s))) as [|x l] eqn:E; cbn [fst snd]; [rewrite E; split; auto; constructor; auto|].
    split; [exact D|]. change (fg (put ?x ?w ?q)) with (fg x). change (bg (put ?x ?w ?q)) with (bg x).
    rewrite get_put, get_put_other by exact D. cbn. rewrite E. constructor.
  - destruct (elems (get s (fg s))) as [|x l] eqn:E; cbn [fst snd]; [rewrite E; split; auto; constructor; auto|].
    split; [exact D|]. change (fg (put ?x ?w ?q)) with (fg x). change (bg (put ?x ?w ?q)) with (bg x).
    rewrite get_put, get_put_other by exact D. cbn. rewrite E. constructor.
  - cbn [fst snd]. split; [exact D|]. constructor. unfold is_empty. destruct (elems _); split; congruence.
  - cbn [fst snd]. split; [exact D|]. constructor. unfold is_empty. destruct (elems (get s (fg s))), (elems (get s (bg s))); cbn; split; intuition congruence.
  - cbn [fst snd]. split; [exact D|]. constructor.
  - cbn [fst snd]. split; [exact D|]. cbn zeta. change (fg (put ?x ?w ?q)) with (fg x). change (bg (put ?x ?w ?q)) with (bg x).
    assert (D' : bg s <> fg s) by congruence. rewrite get_put, (get_put_other _ _ _ _ D'), get_put. cbn. constructor.
Qed.

Lemma conflict_locks o o' : conflict o o' = true -> (locks_fg o = true /\ locks_fg o' = true) \/ (locks_bg o = true /\ locks_bg o' = true).
Proof. destruct o, o'; cbn; intro; try discriminate; auto. Qed.

(** a thread goes on *)
Lemma qi_go s s' t p p' : QI s -> nth_error (qpcs s) t = Some p -> qpcs s' = upd (qpcs s) t p' ->
  fg s' <> bg s' -> raced s' = false -> formed p' ->
  ((fg_mutex s' = fg_mutex s /\ holds_fg p = holds_fg p') \/ (fg_mutex s = None /\ fg_mutex s' = Some t /\ holds_fg p' = true) \/
   (holds_fg p = true /\ fg_mutex s' = None /\ holds_fg p' = false)) ->
  ((bg_mutex s' = bg_mutex s /\ holds_bg p = holds_bg p') \/ (bg_mutex s = None /\ bg_mutex s' = Some t /\ holds_bg p' = true) \/
   (holds_bg p = true /\ bg_mutex s' = None /\ holds_bg p' = false)) ->
  sequential q_spec ([], []) (qevents s') (to_read s', to_swap s') ->
  qphase t p' (qevents s') -> (forall u ph, u <> t -> thread_phase u (qevents s) ph -> thread_phase u (qevents s') ph) -> QI s'.
Proof.
  intros I P U Pt R Fo LF LB Sq Ph Ot.
  assert (Own : forall (h : q_pc -> bool) m m', (forall t p, nth_error (qpcs s) t = Some p -> (h p = true <-> m = Some t)) ->
    (forall t, m = Some t -> nth_error (qpcs s) t <> None) ->
    ((m' = m /\ h p = h p') \/ (m = None /\ m' = Some t /\ h p' = true) \/ (h p = true /\ m' = None /\ h p' = false)) ->
    (forall u q, nth_error (qpcs s') u = Some q -> (h q = true <-> m' = Some u)) /\ (forall u, m' = Some u -> nth_error (qpcs s') u <> None)).
  { intros h m m' K O L. pose proof (K _ _ P) as Kt. split.
    - intros u q H. rewrite U in H. apply nth_upd in H as [[-> ->]|[N H]].
      + destruct L as [[-> L]|[(L1 & L2 & L3)|(L1 & L2 & L3)]]; rewrite ?L2, ?L3; [rewrite <- L; exact Kt|tauto|]. split; intro; congruence.
      + pose proof (K _ _ H) as Ku. destruct L as [[-> L]|[(-> & -> & L)|(L1 & -> & L3)]]; [exact Ku| |].
        * split; intro X; [apply Ku in X|]; congruence.
        * rewrite Ku. apply Kt in L1. split; congruence.
    - intros u H. rewrite U. destruct (Nat.eq_dec t u) as [<-|N]; [rewrite (nth_upd_same _ _ _ _ P); discriminate|]. rewrite nth_upd_other by exact N.
      destruct L as [[-> L]|[(-> & -> & L)|(L1 & -> & L3)]]; [apply O; exact H|congruence|discriminate]. }
  destruct (Own holds_fg _ _ (qi_fg s I) (qi_fg_owner s I) LF) as [F1 F2].
  destruct (Own holds_bg _ _ (qi_bg s I) (qi_bg_owner s I) LB) as [B1 B2].
  split; auto.
  - intros u q H. rewrite U in H. apply nth_upd in H as [[-> ->]|[N H]]; [exact Fo|exact (qi_formed s I _ _ H)].
  - intros u q H. rewrite U in H. apply nth_upd in H as [[-> ->]|[N H]]; [exact Ph|].
    pose proof (qi_phase s I _ _ H) as X. destruct q; apply Ot; auto.
  - intros u H. rewrite U in H. destruct (Nat.eq_dec t u) as [<-|N]; [rewrite (nth_upd_same _ _ _ _ P) in H; discriminate|].
    rewrite nth_upd_other in H by exact N. apply Ot; [congruence|]. exact (qi_none s I _ H).
Qed.

Lemma qi_alone s t o : QI s -> nth_error (qpcs s) t = Some (QIn o) -> existsb (clashes o) (qpcs s) = false.
Proof.
  intros I P. destruct (existsb (clashes o) (qpcs s)) eqn:E; [|reflexivity]. exfalso.
  apply existsb_exists in E as (q & H & C). apply In_nth_error in H as [u H]. destruct q as [ | | | |o'| | |]; try discriminate. cbn in C.
  assert (N : u <> t) by congruence. apply conflict_locks in C as [[A B]|[A B]].
  - pose proof (proj1 (qi_fg s I _ _ P) A). pose proof (proj1 (qi_fg s I _ _ H) B). congruence.
  - pose proof (proj1 (qi_bg s I _ _ P) A). pose proof (proj1 (qi_bg s I _ _ H) B). congruence.
Qed.

Lemma qi_step s l s' : QI s -> qstep s l = Some s' -> QI s'.
Proof.
  intros I H. destruct l as [t o|t]; cbn in H.
  - unfold qcall in H. destruct (nth_error (qpcs s) t) as [p|] eqn:P; [|discriminate]. destruct p; try discriminate. injection H as <-.
    eapply qi_go; [exact I|exact P|reflexivity|apply (qi_ptr s I)|apply (qi_raced s I)| | | | | |].
    + destruct o; reflexivity.
    + left. split; [reflexivity|]. destruct o; reflexivity.
    + left. split; [reflexivity|]. destruct o; reflexivity.
    + constructor. exact (qi_seq s I).
    + pose proof (qi_phase s I _ _ P). cbn [qevents qemit qgo]. destruct (locks_fg o); constructor; assumption.
    + intros u ph N X. cbn. constructor; [cbn; congruence|exact X].
  - unfold qrun in H. destruct (nth_error (qpcs s) t) as [p|] eqn:P; [|discriminate].
    pose proof (qi_phase s I _ _ P) as Ph. pose proof (qi_formed s I _ _ P) as Fo. destruct p as [ |o|o|o|o|o r|o r|o r]; cbn in Ph, Fo; try discriminate.
    + destruct (fg_mutex s) eqn:M; [discriminate|]. injection H as <-.
      eapply qi_go; [exact I|exact P|reflexivity|apply (qi_ptr s I)|apply (qi_raced s I)| | | | | |].
      * destruct (locks_bg o) eqn:L; [exact L|exact Logic.I].
      * right. left. split; [exact M|]. split; [reflexivity|]. destruct (locks_bg o); exact Fo.
      * left. split; [reflexivity|]. destruct (locks_bg o) eqn:L; cbn; auto.
      * exact (qi_seq s I).
      * destruct (locks_bg o); exact Ph.
      * auto.
    + destruct (bg_mutex s) eqn:M; [discriminate|]. injection H as <-.
      eapply qi_go; [exact I|exact P|reflexivity|apply (qi_ptr s I)|apply (qi_raced s I)| | | | | |]; auto; try exact Logic.I.
      exact (qi_seq s I).
    + injection H as <-. eapply qi_go; [exact I|exact P|reflexivity|apply (qi_ptr s I)| | | | | | |]; auto; try exact Logic.I.
      * cbn. rewrite (qi_raced s I), (qi_alone s t o I P). reflexivity.
      * exact (qi_seq s I).
    + destruct (perform_fields s o) as (F1 & F2 & F3 & F4 & F5). destruct (perform_ok s o (qi_ptr s I)) as [K1 K2].
      destruct (perform s o) as [s1 r]. cbn in F1, F2, F3, F4, F5, K1, K2. injection H as <-.
      eapply qi_go; [exact I|exact P|cbn; rewrite F1; reflexivity|exact K1|cbn; rewrite F4; apply (qi_raced s I)| | | | | |].
      * destruct (locks_bg o) eqn:L; [exact L|]. destruct o; try discriminate; reflexivity.
      * left. split; [exact F2|]. destruct o; reflexivity.
      * left. split; [exact F3|]. destruct o; reflexivity.
      * cbn. rewrite F5. econstructor; [exact (qi_seq s I)|exact K2].
      * cbn [qevents qemit qgo]. rewrite F5. destruct (locks_bg o); constructor; exact Ph.
      * intros u ph N X. cbn. rewrite F5. constructor; [cbn; congruence|exact X].
    + injection H as <-. eapply qi_go; [exact I|exact P|reflexivity|apply (qi_ptr s I)|apply (qi_raced s I)| | | | | |]; auto.
      * destruct (locks_fg o) eqn:L; [exact L|exact Logic.I].
      * left. split; [reflexivity|]. cbn. destruct (locks_fg o); reflexivity.
      * right. right. split; [reflexivity|]. split; [reflexivity|]. destruct (locks_fg o); reflexivity.
      * exact (qi_seq s I).
      * destruct (locks_fg o); exact Ph.
    + injection H as <-. eapply qi_go; [exact I|exact P|reflexivity|apply (qi_ptr s I)|apply (qi_raced s I)| | | | | |]; auto; try exact Logic.I.
      exact (qi_seq s I).
    + injection H as <-. eapply qi_go; [exact I|exact P|reflexivity|apply (qi_ptr s I)|apply (qi_raced s I)| | | | | |]; auto; try exact Logic.I.
      * constructor. exact (qi_seq s I).
      * apply ph_ret. exact Ph.
      * intros u ph N X. cbn. constructor; [cbn; congruence|exact X].
Qed.

Lemma qi_reach n s : qreachable n s -> QI s.
Proof. induction 1; [apply qi_init|eapply qi_step; eassumption]. Qed.

Lemma linear_lemma n s : qreachable n s -> linearizable q_spec ([], []) (qevents s) /\ raced s = false.
Proof.
  intro R. apply qi_reach in R. split; [split|apply (qi_raced s R)].
  - eexists. exact (qi_seq s R).
  - intro t. destruct (nth_error (qpcs s) t) as [p|] eqn:P.
    + pose proof (qi_phase s R _ _ P) as X. destruct p; eexists; exact X.
    + eexists. exact (qi_none s R _ P).
Qed.
Lemma content_lemma n s : qreachable n s -> sequential q_spec ([], []) (qevents s) (to_read s, to_swap s).
Proof. intro R. exact (qi_seq s (qi_reach _ _ R)). Qed.

Lemma bg_free s t : QI s -> bg_mutex s = Some t -> exists s', qstep s (QRun t) = Some s'.
Proof.
  intros I M. pose proof (qi_bg_owner s I _ M) as N. destruct (nth_error (qpcs s) t) as [p|] eqn:P; [|congruence].
  pose proof (proj2 (qi_bg s I _ _ P) M) as H. destruct p; try discriminate; cbn; unfold qrun; rewrite P; try (destruct (perform _ _)); eauto.
Qed.
Lemma progress_lemma n s : qreachable n s -> forall t p, nth_error (qpcs s) t = Some p -> p <> QIdle -> exists u s', qstep s (QRun u) = Some s'.
Proof.
  intros R t p P N. apply qi_reach in R as I.
  destruct (bg_mutex s) as [b|] eqn:B; [exists b; eapply bg_free; eauto|].
  destruct (fg_mutex s) as [f|] eqn:F.
  - exists f. pose proof (qi_fg_owner s I _ F) as X. destruct (nth_error (qpcs s) f) as [q|] eqn:Q; [|congruence].
    pose proof (proj2 (qi_fg s I _ _ Q) F) as H. destruct q; try discriminate; cbn; unfold qrun; rewrite Q; try rewrite B; try (destruct (perform _ _)); eauto.
  - exists t. cbn. unfold qrun. rewrite P. destruct p; rewrite ?F, ?B; try (destruct (perform _ _)); try congruence; eauto.
Qed.

(** * the intended use *)
Lemma used_reach c n s : qused c n s -> qreachable n s.
Proof. induction 1; [constructor|econstructor; eassumption]. Qed.

Definition refers (s : qstate) (x : nat) (r : reference) : Prop :=
  exists l, elems (get s (fg s)) = x :: l /\ r = {| r_queue := fg s; r_number := first (get s (fg s)) |}.
Definition need (s : qstate) (o : q_op) : Prop :=
  match o with Swap => to_read s = [] | Front | Pop | FrontAndPop => to_read s <> [] | Clear => False | _ => True end.
Definition got (s : qstate) (o : q_op) (r : q_res) : Prop :=
  match o, r with Empty, RBool b => b = true <-> to_read s = [] | Front, RFront x r => refers s x r | _, _ => True end.
(** what the consumer knows *)
Definition knows (c : nat) (s : qstate) (p : q_pc) : Prop :=
  match p with
  | QIdle => match latest c (qevents s) with Some (LRet _ o r) => got s o r | _ => True end
  | QLockF o | QLockB o | QIn o | QHalf o => need s o
  | QUnlockB o r | QUnlockF o r | QRet o r => got s o r
  end.
Definition doing (p : q_pc) : option q_op :=
  match p with QIdle => None | QLockF o | QLockB o | QIn o | QHalf o | QUnlockB o _ | QUnlockF o _ | QRet o _ => Some o end.
Definition harmless (o : q_op) : bool := match o with Push _ | Empty | BothEmpty | Size => true | _ => false end.

Record QU (c : nat) (s : qstate) : Prop := {
  qu_knows : forall p, nth_error (qpcs s) c = Some p -> knows c s p;
  qu_others : forall t p o, t <> c -> nth_error (qpcs s) t = Some p -> doing p = Some o -> harmless o = true;
  qu_order : pushed (qevents s) = taken (qevents s) ++ to_read s ++ to_swap s;
  qu_defined : forall t o, ~ In (LDo t o RUndefined) (qevents s) }.

(** the read side stays *)
Definition same_front (s s' : qstate) : Prop := fg s' = fg s /\ get s' (fg s') = get s (fg s).
Lemma same_need s s' o : same_front s s' -> need s o -> need s' o.
Proof. intros [A B] H. unfold need in *. destruct o; auto; rewrite to_read_get in *; rewrite B; exact H. Qed.
Lemma same_got s s' o r : same_front s s' -> got s o r -> got s' o r.
Proof.
  intros [A B] H. unfold got in *. destruct o; auto; destruct r; auto.
  - unfold refers in *. rewrite B, A. exact H.
  - rewrite to_read_get in *. rewrite B. exact H.
Qed.
Lemma same_knows c s s' p : same_front s s' -> latest c (qevents s') = latest c (qevents s) -> knows c s p -> knows c s' p.
Proof.
  intros F L H. destruct p; cbn in *; try (eapply same_need; eassumption); try (eapply same_got; eassumption).
  rewrite L. destruct (latest c (qevents s)) as [[| |]|]; auto. eapply same_got; eassumption.
Qed.
Lemma harmless_front s o : fg s <> bg s -> harmless o = true -> same_front s (fst (perform s o)).
Proof.
  intros D H. destruct o; try discriminate; cbn; try (split; reflexivity). split; [reflexivity|].
  change (fg (put ?x ?w ?q)) with (fg x). apply get_put_other. congruence.
Qed.

Lemma spec_defined f b o f' b' r s : q_spec (f, b) o (f', b') r -> f = to_read s -> need s o -> r <> RUndefined.
Proof.
  intros H E N. inversion H; subst; try discriminate.
  match goal with X : _ \/ _ \/ _ |- _ => destruct X as [X|[X|X]]; rewrite X in N; cbn in N; congruence end.
Qed.
(** the order is kept by all but a swap that discards and a clear *)
Lemma spec_order f b o f' b' r t evs : q_spec (f, b) o (f', b') r -> o <> Clear -> (o = Swap -> f = []) ->
  pushed evs = taken evs ++ f ++ b -> pushed (LDo t o r :: evs) = taken (LDo t o r :: evs) ++ f' ++ b'.
Proof.
  intros H N Sw E. inversion H; subst; cbn; try exact E.
  - rewrite E, (Sw eq_refl). cbn. rewrite app_nil_r. reflexivity.
  - rewrite E, <- !app_assoc. reflexivity.
  - rewrite E, <- app_assoc. reflexivity.
  - rewrite E, <- app_assoc. reflexivity.
  - destruct o; try exact E; match goal with X : _ \/ _ \/ _ |- _ => destruct X as [X|[X|X]]; discriminate X end.
  - congruence.
Qed.
Lemma need_after s o : fg s <> bg s -> got (fst (perform s o)) o (snd (perform s o)).
Proof.
  intro D. destruct (perform_ok s o D) as [_ K]. destruct o; try exact I; cbn [perform] in *.
  - cbn [got]. destruct (elems (get s (fg s))) as [|x l] eqn:E; cbn; [exact I|]. exists l. auto.
  - cbn in *. inversion K. assumption.
Qed.

Lemma qu_init c n : QU c (qinit n).
Proof.
  split; cbn; auto.
  - intros p H. apply nth_all in H as ->. cbn. exact I.
  - intros t p o _ H. apply nth_all in H as ->. discriminate.
Qed.

(** steps that neither touch the queues nor emit an effect *)
Lemma qu_quiet c s s' t p p' : QU c s -> nth_error (qpcs s) t = Some p -> qpcs s' = upd (qpcs s) t p' ->
  same_front s s' -> to_swap s' = to_swap s ->
  (qevents s' = qevents s \/ (exists e, qevents s' = e :: qevents s /\ by_thread e = t /\ match e with LDo _ _ _ => False | _ => True end)) ->
  (t = c -> knows c s' p') -> (t <> c -> forall o, doing p' = Some o -> harmless o = true) -> QU c s'.
Proof.
  intros I P U F W Ev Kn Ha.
  assert (R : to_read s' = to_read s) by (rewrite !to_read_get; destruct F as [_ F]; rewrite F; reflexivity).
  split.
  - intros q H. rewrite U in H. apply nth_upd in H as [[-> ->]|[N H]]; [apply Kn; reflexivity|].
    eapply same_knows; [exact F| |exact (qu_knows c s I _ H)].
    destruct Ev as [->|(e & -> & B & _)]; [reflexivity|]. cbn. destruct (Nat.eqb_spec (by_thread e) c); congruence.
  - intros u q o N H D. rewrite U in H. apply nth_upd in H as [[-> ->]|[M H]]; [apply Ha; auto|]. eapply (qu_others c s I); eassumption.
  - rewrite R, W. pose proof (qu_order c s I) as O. destruct Ev as [->|(e & -> & B & K)]; [exact O|]. destruct e; try contradiction; cbn; exact O.
  - intros u o H. destruct Ev as [E|(e & E & B & K)]; rewrite E in H; [exact (qu_defined c s I _ _ H)|].
    destruct H as [->|H]; [exact K|exact (qu_defined c s I _ _ H)].
Qed.

Lemma qu_step c s l s' : QI s -> QU c s -> intended c s l -> qstep s l = Some s' -> QU c s'.
Proof.
  intros I U In H. destruct l as [t o|t]; cbn in H.
  - unfold qcall in H. destruct (nth_error (qpcs s) t) as [p|] eqn:P; [|discriminate]. destruct p; try discriminate. injection H as <-.
    eapply qu_quiet; [exact U|exact P|reflexivity|split; reflexivity|reflexivity| | |].
    + right. exists (LCall t o). auto.
    + intros ->. pose proof (qu_knows c s U _ P) as K. cbn in K.
      assert (G : need s o).
      { cbn in In. destruct o; cbn; auto.
        - destruct In as [_ In]. rewrite In in K. cbn in K. apply K. reflexivity.
        - destruct In as [_ In]. rewrite In in K. cbn in K. intro X. apply K in X. discriminate.
        - destruct In as [_ [In|(x & r & In)]]; rewrite In in K; cbn in K; [intro X; apply K in X; discriminate|].
          destruct K as (l & K & _). rewrite to_read_get, K. discriminate.
        - destruct In as [_ In]. rewrite In in K. cbn in K. intro X. apply K in X. discriminate. }
      destruct (locks_fg o); exact G.
    + intros N o' D. assert (o' = o) as -> by (destruct (locks_fg o); cbn in D; congruence).
      cbn in In. destruct o; cbn; auto; try (destruct In; congruence); contradiction.
  - unfold qrun in H. destruct (nth_error (qpcs s) t) as [p|] eqn:P; [|discriminate].
    pose proof (qu_others c s U t p) as Ot.
    assert (Kn : t = c -> knows c s p) by (intros ->; exact (qu_knows c s U _ P)).
    destruct p as [ |o|o|o|o|o r|o r|o r]; try discriminate.
    + destruct (fg_mutex s) eqn:M; [discriminate|]. injection H as <-.
      eapply qu_quiet; [exact U|exact P|reflexivity|split; reflexivity|reflexivity|left; reflexivity| |].
      * intro E. specialize (Kn E). destruct (locks_bg o); exact Kn.
      * intros N o' D. apply (Ot o' N P). destruct (locks_bg o); exact D.
    + destruct (bg_mutex s) eqn:M; [discriminate|]. injection H as <-.
      eapply qu_quiet; [exact U|exact P|reflexivity|split; reflexivity|reflexivity|left; reflexivity|exact Kn|intros N o' D; exact (Ot o' N P D)].
    + injection H as <-.
      eapply qu_quiet; [exact U|exact P|reflexivity|split; reflexivity|reflexivity|left; reflexivity|exact Kn|intros N o' D; exact (Ot o' N P D)].
    + destruct (perform_fields s o) as (F1 & F2 & F3 & F4 & F5). destruct (perform_ok s o (qi_ptr s I)) as [K1 K2].
      pose proof (need_after s o (qi_ptr s I)) as G. pose proof (harmless_front s o (qi_ptr s I)) as Hf.
      assert (Nd : need s o).
      { destruct (Nat.eq_dec t c) as [->|N]; [exact (Kn eq_refl)|]. specialize (Ot o N P eq_refl). destruct o; try discriminate; exact Logic.I. }
      destruct (perform s o) as [s1 r]. cbn in F1, F2, F3, F4, F5, K1, K2, G, Hf. injection H as <-.
      split.
      * intros q H. cbn in H. rewrite F1 in H. apply nth_upd in H as [[<- ->]|[N H]].
        -- destruct (locks_bg o); exact G.
        -- assert (Sf : same_front s s1) by (apply Hf; apply (Ot o); auto).
           eapply same_knows; [exact Sf| |exact (qu_knows c s U _ H)].
           cbn. destruct (Nat.eqb_spec t c); [congruence|]. rewrite F5. reflexivity.
      * intros u q o' N H D. cbn in H. rewrite F1 in H. apply nth_upd in H as [[-> ->]|[M H]].
        -- apply (Ot o' N P). destruct (locks_bg o); exact D.
        -- eapply (qu_others c s U); eassumption.
      * change (qevents (qemit ?x ?e)) with (e :: qevents x). change (qevents (qgo ?x ?a ?b)) with (qevents x). rewrite F5.
        eapply spec_order; [exact K2| | |exact (qu_order c s U)].
        -- intros ->. exact Nd.
        -- intros ->. exact Nd.
      * intros u o' H. cbn in H. rewrite F5 in H. destruct H as [H|H]; [|exact (qu_defined c s U _ _ H)].
        injection H as -> -> ->. eapply spec_defined; [exact K2|reflexivity|exact Nd|reflexivity].
    + injection H as <-.
      eapply qu_quiet; [exact U|exact P|reflexivity|split; reflexivity|reflexivity|left; reflexivity| |].
      * intro E. specialize (Kn E). destruct (locks_fg o); exact Kn.
      * intros N o' D. apply (Ot o' N P). destruct (locks_fg o); exact D.
    + injection H as <-.
      eapply qu_quiet; [exact U|exact P|reflexivity|split; reflexivity|reflexivity|left; reflexivity|exact Kn|intros N o' D; exact (Ot o' N P D)].
    + injection H as <-.
      eapply qu_quiet; [exact U|exact P|reflexivity|split; reflexivity|reflexivity|right; exists (LRet t o r); auto| |].
      * intro E. specialize (Kn E). cbn. rewrite E, Nat.eqb_refl. exact Kn.
      * intros N o' D. discriminate.
Qed.

Lemma qu_reach c n s : qused c n s -> QU c s.
Proof. induction 1; [apply qu_init|eapply qu_step; eauto]. eapply qi_reach, used_reach. eassumption. Qed.

Lemma order_lemma c n s : qused c n s -> pushed (qevents s) = taken (qevents s) ++ to_read s ++ to_swap s.
Proof. intro R. exact (qu_order c s (qu_reach _ _ _ R)). Qed.
Lemma defined_lemma c n s : qused c n s -> forall t o, ~ In (LDo t o RUndefined) (qevents s).
Proof. intro R. exact (qu_defined c s (qu_reach _ _ _ R)). Qed.

(** between calls the thread is idle *)
Lemma idle_after n s t : qreachable n s -> forall o r p, latest t (qevents s) = Some (LRet t o r) -> nth_error (qpcs s) t = Some p -> p = QIdle.
Proof.
  intros R o r p L P. pose proof (qi_phase s (qi_reach _ _ R) _ _ P) as Ph.
  assert (X : forall evs ph, thread_phase t evs ph -> latest t evs = Some (LRet t o r) -> ph = NotCalled).
  { intros evs ph H. induction H as [|e evs ph B H IH|o' evs H IH|o' r' evs H IH|o' r' evs H IH]; cbn; auto.
    - destruct (Nat.eqb_spec (by_thread e) t); [congruence|exact IH].
    - rewrite Nat.eqb_refl. discriminate.
    - rewrite Nat.eqb_refl. discriminate. }
  destruct p; auto; apply X in Ph; auto; discriminate.
Qed.

Lemma latest_thread t evs e : latest t evs = Some e -> In e evs /\ by_thread e = t.
Proof.
  induction evs as [|x evs IH]; cbn; [discriminate|]. destruct (Nat.eqb_spec (by_thread x) t); [|intro H; apply IH in H as []; auto].
  intro H. injection H as ->. auto.
Qed.
Lemma phase_none t evs : (forall e, In e evs -> by_thread e <> t) -> latest t evs = None.
Proof.
  induction evs as [|x evs IH]; cbn; intro H; [reflexivity|]. destruct (Nat.eqb_spec (by_thread x) t); [|auto]. exfalso. eapply H; eauto.
Qed.
Lemma events_thread n s : qreachable n s -> forall e, In e (qevents s) -> nth_error (qpcs s) (by_thread e) <> None.
Proof.
  induction 1 as [|s l s' R IH H]; [contradiction|]. intros e E.
  assert (X : length (qpcs s') = length (qpcs s) /\ (In e (qevents s) \/ nth_error (qpcs s) (by_thread e) <> None)).
  { destruct l as [t o|t]; cbn in H; unfold qcall, qrun in H; destruct (nth_error (qpcs s) t) as [p|] eqn:P; try discriminate.
    - destruct p; try discriminate. injection H as <-. cbn in *. rewrite upd_length. split; [reflexivity|]. destruct E as [<-|E]; auto. right. cbn. congruence.
    - destruct p as [ |o|o|o|o|o r|o r|o r]; try discriminate; try (destruct (fg_mutex s); [discriminate|]); try (destruct (bg_mutex s); [discriminate|]);
        try (injection H as <-; cbn in *; rewrite upd_length; split; [reflexivity|]; auto; fail).
      + destruct (perform_fields s o) as (F1 & _ & _ & _ & F5). destruct (perform s o) as [s1 r]. cbn in F1, F5. injection H as <-. cbn in *. rewrite upd_length, F1.
        split; [reflexivity|]. rewrite F5 in E. destruct E as [<-|E]; auto. right. cbn. congruence.
      + injection H as <-. cbn in *. rewrite upd_length. split; [reflexivity|]. destruct E as [<-|E]; auto. right. cbn. congruence. }
  destruct X as [Le X]. assert (Y : nth_error (qpcs s) (by_thread e) <> None) by (destruct X; auto).
  apply nth_error_Some in Y. apply nth_error_Some. rewrite Le. exact Y.
Qed.

Lemma reference_lemma c n s x r : qused c n s -> latest c (qevents s) = Some (LRet c Front (RFront x r)) ->
  deref s r = Some x /\ forall t o, nth_error (qpcs s) t = Some (QHalf o) -> removes o = false.
Proof.
  intros U L. pose proof (used_reach _ _ _ U) as R. pose proof (qu_reach _ _ _ U) as K.
  destruct (nth_error (qpcs s) c) as [p|] eqn:P.
  - pose proof (idle_after _ _ _ R _ _ _ L P) as ->. pose proof (qu_knows c s K _ P) as Kn. cbn in Kn. rewrite L in Kn. destruct Kn as (l & E & ->).
    split.
    + unfold deref. cbn [r_queue r_number]. rewrite Nat.leb_refl, Nat.sub_diag, E. reflexivity.
    + intros t o H. assert (N : t <> c) by congruence. pose proof (qu_others c s K t _ o N H eq_refl) as X. destruct o; try discriminate; reflexivity.
  - apply latest_thread in L as [L B]. pose proof (events_thread _ _ R _ L) as X. rewrite B in X. congruence.
Qed.

Lemma both_empty_lemma c n s t evs : qused c n s -> qevents s = LDo t BothEmpty (RBool true) :: evs -> pushed evs = taken evs.
Proof.
  intros U E. pose proof (order_lemma _ _ _ U) as O. pose proof (content_lemma _ _ (used_reach _ _ _ U)) as C. rewrite E in O, C. cbn in O.
  inversion C; subst. match goal with X : q_spec _ _ _ _ |- _ => inversion X; subst end.
  match goal with X : true = true <-> _ |- _ => destruct (proj1 X eq_refl) as [A B] end. rewrite A, B, app_nil_r in O. exact O.
Qed.
