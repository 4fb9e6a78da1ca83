(** Proofs of C152. *)
From Coq Require Import NArith List Bool Arith Lia ZifyBool ZifyNat ZifyN.
From Verif Require Import Wait_spec Wait_proofs Consumer_model Consumer_spec Consumer_proofs Pool_model Pool_spec Pool_proofs PoolStop_proofs PoolTask_spec PoolTask_proofs PoolDown_spec.
Import ListNotations.

Notation hreach v en n := (reachable (c_above 0) (c_reached 0) c_incr c_decr counter_client (init v en n)).
Ltac pf := cbn [queue slots slots_mutex pool_enabled pool_threads pstages events set_queue set_slots set_slots_mutex set_pool_enabled set_pool_threads set_pstage say].

(** ** What is known of the threads of a pool that is being disabled *)
Definition ctrl (p : pc N) : Prop := match p with KLock Kdisable | DTest Kdisable | DStore Kdisable | DNotify Kdisable => True | _ => False end.
Lemma ctrl_awake p : ctrl p -> forall w dl, p <> WSleep w dl.
Proof. intros C w dl ->. destruct C. Qed.
Lemma ctrl_step v en n h l h' t p : hreach v en n h -> hstep h l = Some h' -> nth_error (threads h) t = Some p -> ctrl p ->
  (exists p', nth_error (threads h') t = Some p' /\ ctrl p') \/ (nth_error (threads h') t = Some Idle /\ enabled h' = false).
Proof.
  intros R E Hp C. pose proof (reachable_inv _ _ _ _ _ _ _ _ _ _ R) as Iv. unfold hstep, c_step in E.
  assert (Up : forall u q h1, u <> t -> threads h1 = upd (threads h) u q -> (exists p', nth_error (threads h1) t = Some p' /\ ctrl p') \/ (nth_error (threads h1) t = Some Idle /\ enabled h1 = false)).
  { intros u q h1 D Ht. left. exists p. rewrite Ht, nth_upd_other by exact D. split; assumption. }
  destruct l as [u o|u pick|u|u|].
  - cbn [step] in E. destruct (nth_error (threads h) u) as [q|] eqn:Hu; [|discriminate]. destruct q; try discriminate. injection E as <-. eapply (Up u); [|reflexivity]. intros ->. rewrite Hu in Hp. injection Hp as <-. destruct C.
  - destruct (Nat.eq_dec u t) as [->|D].
    + cbn [step] in E. rewrite Hp in E. destruct p; try contradiction; destruct k; try contradiction; cbn [run] in E.
      * destruct (free (status h)); [|discriminate]. injection E as <-. left. eexists. split; [eapply nth_upd_same; exact Hp|exact I].
      * destruct (enabled h) eqn:En; injection E as <-.
        -- left. eexists. split; [eapply nth_upd_same; exact Hp|exact I].
        -- right. split; [eapply nth_upd_same; exact Hp|exact En].
      * destruct (free (mutex h)); [|discriminate]. injection E as <-. left. eexists. split; [eapply nth_upd_same; exact Hp|exact I].
      * injection E as <-. destruct (inv_ok _ _ _ Iv t _ Hp) as (_ & _ & L & _). right. split; [|exact L]. cbn [notify_all threads set_threads]. rewrite nth_error_map. cbn [after_disable finish emit set_pc set_status threads].
        rewrite (nth_upd_same _ _ _ _ Hp). reflexivity.
    + destruct (hrun _ _ _ _ _ _ _ R E) as (_ & q & q' & Hq & (_ & _ & _ & Hn) & _ & _). left. destruct (Hn t p) as (p' & Hp' & W); [rewrite nth_upd_other by exact D; exact Hp|].
      apply woken_awake in W; [|apply ctrl_awake; exact C]. subst p'. exists p. split; assumption.
  - cbn [step] in E. destruct (nth_error (threads h) u) as [q|] eqn:Hu; [|discriminate]. destruct q; try discriminate. injection E as <-. eapply (Up u); [|reflexivity]. intros ->. rewrite Hu in Hp. injection Hp as <-. destruct C.
  - cbn [step] in E. destruct (nth_error (threads h) u) as [q|] eqn:Hu; [|discriminate]. destruct q; try discriminate. destruct dl as [d|]; [|discriminate]. destruct (d <=? now h); [|discriminate]. injection E as <-.
    eapply (Up u); [|reflexivity]. intros ->. rewrite Hu in Hp. injection Hp as <-. destruct C.
  - injection E as <-. left. exists p. split; assumption.
Qed.

Definition mine (g : pstage) : bool := pool_thread g || ended g.
Record Down (s : pstate) : Prop := {
  dn_ctrl : forall t, nth_error (pstages s) t = Some PQueueOff -> exists p, nth_error (threads (handler (queue s))) t = Some p /\ ctrl p;
  dn_off : forall t us, nth_error (pstages s) t = Some (PJoin us) -> queue_off s;
  dn_join : forall t us u, nth_error (pstages s) t = Some (PJoin us) -> In u us -> exists g, nth_error (pstages s) u = Some g /\ mine g = true;
  dn_mine : forall u, In u (pool_threads s) -> exists g, nth_error (pstages s) u = Some g /\ mine g = true }.

Lemma mine_stays s l s' u g : pstep s l = Some s' -> nth_error (pstages s) u = Some g -> mine g = true -> exists g', nth_error (pstages s') u = Some g' /\ mine g' = true.
Proof.
  intros E Hu Hg. destruct (pstep_shape _ _ _ E) as [(H1 & _ & _)|[(t & g0 & g' & evs & _ & Ht & Hs & _ & Hh)|(t & w & k & _ & Ht & Hw & Hs & _ & _)]].
  - exists g. rewrite H1. auto.
  - destruct (Nat.eq_dec t u) as [->|D].
    + exists g'. rewrite Hs, (nth_upd_same _ _ _ _ Ht). split; [reflexivity|]. rewrite Hu in Ht. injection Ht as <-. destruct Hh; try discriminate; try reflexivity; destruct H as [-> | ->]; discriminate.
    + exists g. rewrite Hs, nth_upd_other by exact D. auto.
  - destruct (Nat.eq_dec t u) as [->|D]; [rewrite Hu in Ht; injection Ht as ->; discriminate|]. destruct (Nat.eq_dec w u) as [->|D']; [rewrite Hu in Hw; injection Hw as ->; discriminate|].
    exists g. rewrite Hs, !nth_upd_other by assumption. auto.
Qed.
Lemma threads_grow s l s' u : pstep s l = Some s' -> In u (pool_threads s') -> In u (pool_threads s) \/ nth_error (pstages s') u = Some PLoop.
Proof.
  intros E Hu.
  assert (C : forall t c g s1, pool_threads s1 = pool_threads s -> queue_call t c g s1 = Some s' -> In u (pool_threads s)).
  { intros t c g s1 H1 E1. unfold queue_call in E1. destruct (cstep _ _) as [q|]; [|discriminate]. injection E1 as <-. revert Hu. pf. now rewrite H1. }
  assert (Q : forall t pick g, in_queue_step t pick g s = Some s' -> In u (pool_threads s)).
  { intros t pick g E1. unfold in_queue_step in E1. destruct (nth_error _ t) as [k|]; [|discriminate]. destruct (cstep _ _) as [q|]; [|discriminate].
    assert (X : pool_threads (queue_returned t g (set_queue q s)) = pool_threads s).
    { destruct g; cbn [queue_returned]; try reflexivity; [destruct (log _) as [|[] ?]; reflexivity|destruct (results _) as [|[? ?|? []|?|?] ?]; reflexivity]. }
    destruct (nth_error (stages q) t) as [[]|]; injection E1 as <-; try exact Hu. now rewrite X in Hu. }
  destruct l as [t c|t pick|t| |t|t d]; cbn [pstep] in E.
  - destruct (nth_error (pstages s) t) as [g|]; [|discriminate]. destruct g; try discriminate. destruct c; cbn [pstart] in E; try (injection E as <-; left; exact Hu). left. exact (C _ _ _ s eq_refl E).
  - destruct (nth_error (pstages s) t) as [g|] eqn:Hg; [|discriminate]. destruct g as [| |id|id|id| |k| | |us| | | |id|id|]; cbn [prun] in E; try discriminate; try (left; exact (Q _ _ _ E)).
    + destruct (free (slots_mutex s)); [|discriminate]. destruct (registered id s); [left; exact (C _ _ _ (set_slots_mutex (Some t) s) eq_refl E)|injection E as <-; left; exact Hu].
    + destruct (free (slots_mutex s)); [|discriminate]. destruct (registered id s); injection E as <-; left; exact Hu.
    + destruct (pool_enabled s); injection E as <-; left; exact Hu.
    + destruct k as [|k]; [injection E as <-; left; exact Hu|]. destruct (nth_error (pstages s) pick) as [g|] eqn:Hp; [|discriminate]. destruct g; try discriminate. injection E as <-. revert Hu. pf. intro Hu.
      apply in_app_iff in Hu as [Hu|[<-|[]]]; [left; exact Hu|right]. rewrite nth_upd_other by congruence. eapply nth_upd_same. exact Hp.
    + destruct (pool_enabled s); [left; exact (C _ _ _ (set_pool_enabled false s) eq_refl E)|injection E as <-; left; exact Hu].
    + destruct us as [|w us]; [injection E as <-; destruct Hu|]. destruct (nth_error (pstages s) w) as [g|]; [|discriminate]. destruct g; try discriminate. injection E as <-. left. exact Hu.
    + left. exact (C _ _ _ s eq_refl E).
    + destruct (free (slots_mutex s)); [|discriminate]. destruct (registered id s); injection E as <-; left; exact Hu.
    + injection E as <-. left. exact Hu.
  - destruct (cstep _ _) as [q|]; [|discriminate]. injection E as <-. left. exact Hu.
  - destruct (cstep _ _) as [q|]; [|discriminate]. injection E as <-. left. exact Hu.
  - destruct (cstep _ _) as [q|]; [|discriminate]. injection E as <-. left. exact Hu.
  - destruct (nth_error (pstages s) t) as [g|]; [|discriminate]. destruct g; try discriminate. injection E as <-. left. exact Hu.
Qed.
(** where the stages of disable come from *)
Lemma off_from s l s' t : pstep s l = Some s' -> nth_error (pstages s') t = Some PQueueOff -> nth_error (pstages s) t = Some PQueueOff \/
  (nth_error (pstages s) t = Some PDisable /\ cstep (queue s) (CCall t (Switch Kdisable)) = Some (queue s')).
Proof.
  intros E H. destruct (pstep_shape _ _ _ E) as [(H1 & _ & _)|[(u & g0 & g' & evs & B & Ht & Hs & _ & Hh)|(u & w & k & _ & Ht & Hw & Hs & _ & _)]].
  - left. now rewrite <- H1.
  - rewrite Hs in H. apply nth_upd in H as [[-> <-]|[_ H]]; [|left; exact H]. right.
    assert (g0 = PDisable) as -> by (inversion Hh; subst; try reflexivity; contradiction).
    split; [exact Ht|]. destruct B as [(c & ->)|[(pick & ->)|(d & ->)]]; cbn [pstep] in E; rewrite Ht in E; try discriminate. cbn [prun] in E. destruct (pool_enabled s).
    + unfold queue_call in E. pf. change (queue (set_pool_enabled false s)) with (queue s) in E. destruct (cstep (queue s) (CCall u (Switch Kdisable))) as [q|]; [|discriminate]. injection E as <-. reflexivity.
    + injection E as <-. pf. exfalso. revert Hs. cbn [pstages set_pstage say]. intro Hs. assert (X : nth_error (upd (pstages s) u PIdle) u = nth_error (upd (pstages s) u PQueueOff) u) by now rewrite Hs.
      rewrite !(nth_upd_same _ _ _ _ Ht) in X. discriminate.
  - rewrite Hs in H. apply nth_upd in H as [[_ X]|[_ H]]; [discriminate|]. apply nth_upd in H as [[_ X]|[_ H]]; [discriminate|]. left. exact H.
Qed.
Lemma join_from s l s' t us : pstep s l = Some s' -> nth_error (pstages s') t = Some (PJoin us) -> nth_error (pstages s) t = Some (PJoin us) \/
  (exists u, nth_error (pstages s) t = Some (PJoin (u :: us))) \/ (nth_error (pstages s) t = Some PQueueOff /\ us = pool_threads s).
Proof.
  intros E H. destruct (pstep_shape _ _ _ E) as [(H1 & _ & _)|[(u & g0 & g' & evs & B & Ht & Hs & _ & Hh)|(u & w & k & _ & Ht & Hw & Hs & _ & _)]].
  - left. now rewrite <- H1.
  - rewrite Hs in H. apply nth_upd in H as [[-> <-]|[_ H]]; [|left; exact H]. right.
    assert (G : g0 = PQueueOff \/ exists w, g0 = PJoin (w :: us)) by (inversion Hh; subst; eauto; contradiction).
    destruct G as [-> |(w & ->)]; [right|left; exists w; exact Ht]. split; [exact Ht|].
    destruct B as [(c & ->)|[(pick & ->)|(d & ->)]]; cbn [pstep] in E; rewrite Ht in E; try discriminate. cbn [prun] in E. unfold in_queue_step in E.
    assert (Y : forall s1, s' = s1 -> nth_error (pstages s1) u = Some PQueueOff -> us = pool_threads s).
    { intros s1 -> X. rewrite Hs, (nth_upd_same _ _ _ _ Ht) in X. discriminate. }
    destruct (nth_error (stages (queue s)) u) as [k|]; [|discriminate]. destruct (cstep _ _) as [q|]; [|discriminate].
    destruct (nth_error (stages q) u) as [[]|]; injection E as E; try (apply (Y (set_queue q s)); [symmetry; exact E|exact Ht]).
    cbn [queue_returned] in E. rewrite <- E in Hs. revert Hs. pf. intro Hs. assert (X : nth_error (upd (pstages s) u (PJoin (pool_threads s))) u = nth_error (upd (pstages s) u (PJoin us)) u) by now rewrite Hs.
    rewrite !(nth_upd_same _ _ _ _ Ht) in X. injection X as ->. reflexivity.
  - rewrite Hs in H. apply nth_upd in H as [[_ X]|[_ H]]; [discriminate|]. apply nth_upd in H as [[_ X]|[_ H]]; [discriminate|]. left. exact H.
Qed.

Lemma thread_of n m s t g : PInv n m s -> nth_error (pstages s) t = Some g ->
  exists k p, nth_error (stages (queue s)) t = Some k /\ nth_error (threads (handler (queue s))) t = Some p /\ ptie g k /\ tie nat k p.
Proof.
  intros P Hg. pose proof (creachable_cinv _ _ _ _ _ (pi_queue _ _ _ P)) as C. destruct (same_length _ _ _ _ (pi_length _ _ _ P) Hg) as (k & Hk). destruct (same_length _ _ _ _ (ci_length _ _ _ _ _ C) Hk) as (p & Hp).
  exists k, p. split; [exact Hk|]. split; [exact Hp|]. split; [exact (pi_tie _ _ _ P _ _ _ Hg Hk)|exact (ci_tie _ _ _ _ _ C _ _ _ Hk Hp)].
Qed.

Lemma pstep_down n m s l s' : PInv n m s -> QI (handler (queue s)) -> Down s -> pstep s l = Some s' -> Down s'.
Proof.
  intros P Q D E. pose proof (pstep_pinv _ _ _ _ _ P E) as P'. destruct (pstep_qi _ _ _ _ _ P Q E) as [Q' Off].
  pose proof (creachable_cinv _ _ _ _ _ (pi_queue _ _ _ P)) as C.
  assert (Ctrl : forall t, nth_error (pstages s) t = Some PQueueOff -> (exists p, nth_error (threads (handler (queue s'))) t = Some p /\ ctrl p) \/ (nth_error (threads (handler (queue s'))) t = Some Idle /\ queue_off s')).
  { intros t Ht. destruct (dn_ctrl _ D t Ht) as (p & Hp & Hc). destruct (pstep_queue _ _ _ E) as [->|(ql & A & Eq)]; [left; eauto|].
    destruct (cstep_handler _ _ _ A Eq) as [->|(hl & _ & Eh)]; [left; eauto|]. exact (ctrl_step _ _ _ _ _ _ _ _ (ci_handler _ _ _ _ _ C) Eh Hp Hc). }
  constructor.
  - intros t Ht. destruct (thread_of _ _ _ _ _ P' Ht) as (k & p & Hk & Hp & T1 & T2). cbn in T1. subst k. cbn in T2. destruct (off_from _ _ _ _ E Ht) as [Hs|[Hs Eq]].
    + destruct (Ctrl t Hs) as [X|[X _]]; [exact X|]. rewrite Hp in X. injection X as ->. destruct T2 as (_ & T2 & _). congruence.
    + exists p. split; [exact Hp|]. cbn [cstep begin] in Eq. destruct (nth_error (stages (queue s)) t) as [k|]; [|discriminate]. destruct k; try discriminate. unfold hstep, c_step in Eq. cbn [step] in Eq.
      destruct (nth_error (threads (handler (queue s))) t) as [p0|] eqn:H0; [|discriminate]. destruct p0; try discriminate. injection Eq as Eq. rewrite <- Eq in Hp. cf. revert Hp. cbn [handler set_stage set_handler threads set_pc].
      rewrite (nth_upd_same _ _ _ _ H0). intro X. injection X as <-. exact I.
  - intros t us Ht. destruct (join_from _ _ _ _ _ E Ht) as [Hs|[(u & Hs)|[Hs _]]]; [exact (Off (dn_off _ D _ _ Hs))|exact (Off (dn_off _ D _ _ Hs))|].
    destruct (Ctrl t Hs) as [(p & Hp & Hc)|[_ X]]; [|exact X]. destruct (thread_of _ _ _ _ _ P' Ht) as (k & p0 & Hk & Hp0 & T1 & T2). cbn in T1. subst k. cbn in T2. subst p0. rewrite Hp in Hp0. injection Hp0 as ->. destruct Hc.
  - intros t us u Ht Hu. assert (X : exists g, nth_error (pstages s) u = Some g /\ mine g = true).
    { destruct (join_from _ _ _ _ _ E Ht) as [Hs|[(w & Hs)|[Hs ->]]]; [exact (dn_join _ D _ _ _ Hs Hu)|exact (dn_join _ D _ _ _ Hs (or_intror Hu))|exact (dn_mine _ D _ Hu)]. }
    destruct X as (g & Hg & M). exact (mine_stays _ _ _ _ _ E Hg M).
  - intros u Hu. destruct (threads_grow _ _ _ _ E Hu) as [H|H]; [destruct (dn_mine _ D _ H) as (g & Hg & M); exact (mine_stays _ _ _ _ _ E Hg M)|]. exists PLoop. split; [exact H|reflexivity].
Qed.
Lemma preachable_down n m s : preachable any_label (pinit n m) s -> Down s.
Proof.
  intros R. induction R as [|s l s' R IH A E].
  - constructor; [intros t H|intros t us H|intros t us u H|intros u []]; destruct (init_stage _ _ _ _ H) as [X|X]; discriminate.
  - destruct (preachable_qi _ _ _ _ R) as [P Q]. exact (pstep_down _ _ _ _ _ P Q IH E).
Qed.

(** ** Steps of a thread inside the queue *)
Definition counting (k : stage nat) : bool := match k with SIncrement | SWait | SOther => true | _ => false end.
Lemma lift_run n m s v g k pick h' : PInv n m s -> nth_error (pstages s) v = Some g -> nth_error (stages (queue s)) v = Some k -> counting k = true ->
  hstep (handler (queue s)) (Run v pick) = Some h' ->
  exists s', pstep s (PRun v pick) = Some s' /\ handler (queue s') = h' /\ pop_mutex (queue s') = pop_mutex (queue s) /\
    (forall u, u <> v -> nth_error (stages (queue s')) u = nth_error (stages (queue s)) u /\ nth_error (pstages s') u = nth_error (pstages s) u) /\
    (nth_error (threads h') v <> Some Idle -> nth_error (stages (queue s')) v = Some k /\ nth_error (pstages s') v = Some g) /\
    (slots_mutex s' = slots_mutex s \/ k = SIncrement /\ slots_mutex s' = None) /\
    (nth_error (threads h') v = Some Idle ->
      (g = PQueueOff -> nth_error (pstages s') v = Some (PJoin (pool_threads s))) /\
      (g = PConsume -> forall w r l, log h' = EvReturn v w r :: l ->
        match r with ConditionMet => nth_error (stages (queue s')) v = Some SPop /\ nth_error (pstages s') v = Some PConsume | _ => nth_error (pstages s') v = Some PEnded end)).
Proof.
  intros P Hg Hk Hc Eh. pose proof (pi_tie _ _ _ P _ _ _ Hg Hk) as T.
  assert (Kg : match g with PProduce _ => k = SIncrement | PQueueOff | PWaitTasks => k = SOther | PConsume => k = SWait | _ => False end).
  { destruct g; cbn in T; subst; try discriminate; try reflexivity; [destruct T as [-> | ->]; [discriminate|reflexivity]|destruct T as [-> |T]; [reflexivity|destruct k; discriminate]]. }
  assert (Es : pstep s (PRun v pick) = in_queue_step v pick g s) by (cbn [pstep]; rewrite Hg; destruct g; try contradiction; reflexivity).
  rewrite Es. unfold in_queue_step. rewrite Hk. assert (El : match k with SIncrement | SWait | SOther => CRun v pick | _ => CQueue v end = @CRun nat v pick) by (destruct k; try discriminate; reflexivity).
  rewrite El. cbn [cstep]. rewrite Hk, Eh. clear Es El.
  assert (Stay : nth_error (threads h') v <> Some Idle -> (match nth_error (threads h') v with Some Idle => Some (returned v k (set_handler h' (queue s))) | _ => Some (set_handler h' (queue s)) end) = Some (set_handler h' (queue s)))
    by (intro X; destruct (nth_error (threads h') v) as [[]|]; try reflexivity; congruence).
  assert (D : {nth_error (threads h') v = Some Idle} + {nth_error (threads h') v <> Some Idle}) by (destruct (nth_error (threads h') v) as [[]|]; try (right; discriminate); left; reflexivity).
  destruct D as [Hi|Hi].
  - rewrite Hi. destruct g; try contradiction; subst k; cbn [returned].
    + cf. rewrite (nth_upd_same _ _ _ _ Hk). cbn [queue_returned]. eexists. split; [reflexivity|]. pf. cf. repeat (split; [reflexivity|]).
      split; [intros u D; rewrite !nth_upd_other by congruence; split; reflexivity|]. split; [congruence|]. split; [right; split; reflexivity|]. intros _. split; discriminate.
    + cf. rewrite (nth_upd_same _ _ _ _ Hk). cbn [queue_returned]. eexists. split; [reflexivity|]. pf. cf. repeat (split; [reflexivity|]).
      split; [intros u D; rewrite !nth_upd_other by congruence; split; reflexivity|]. split; [congruence|]. split; [left; reflexivity|]. intros _. split; [intros _; eapply nth_upd_same; exact Hg|discriminate].
    + cf. rewrite (nth_upd_same _ _ _ _ Hk). cbn [queue_returned]. pf. cf. destruct (log h') as [|[u w r|u w|u w] l]; (eexists; split; [reflexivity|]; pf; cf; repeat (split; [reflexivity|]));
        (split; [intros x D; rewrite !nth_upd_other by congruence; split; reflexivity|]; split; [congruence|]; split; [left; reflexivity|]; intros _; split; discriminate).
    + cf. destruct (log h') as [|[u w r|u w|u w] l] eqn:El.
      * cf. rewrite Hk. eexists. split; [reflexivity|]. pf. cf. repeat (split; [reflexivity|]). split; [intros; split; reflexivity|]. split; [congruence|]. split; [left; reflexivity|]. intros _. split; [discriminate|]. intros _ w r l X. discriminate.
      * destruct r; cf; rewrite (nth_upd_same _ _ _ _ Hk).
        -- cbn [queue_returned]. pf. cf. eexists. split; [reflexivity|]. pf. cf. repeat (split; [reflexivity|]). split; [intros x D; rewrite !nth_upd_other by congruence; split; reflexivity|]. split; [congruence|].
           split; [left; reflexivity|]. intros _. split; [discriminate|]. intros _ w0 r0 l0 X. assert (r0 = Disabled) as -> by congruence. eapply nth_upd_same. exact Hg.
        -- cbn [queue_returned]. pf. cf. eexists. split; [reflexivity|]. pf. cf. repeat (split; [reflexivity|]). split; [intros x D; rewrite !nth_upd_other by congruence; split; reflexivity|]. split; [congruence|].
           split; [left; reflexivity|]. intros _. split; [discriminate|]. intros _ w0 r0 l0 X. assert (r0 = Timeout) as -> by congruence. eapply nth_upd_same. exact Hg.
        -- eexists. split; [reflexivity|]. pf. cf. repeat (split; [reflexivity|]). split; [intros x D; rewrite !nth_upd_other by congruence; split; reflexivity|]. split; [congruence|].
           split; [left; reflexivity|]. intros _. split; [discriminate|]. intros _ w0 r0 l0 X. assert (r0 = ConditionMet) as -> by congruence. split; [eapply nth_upd_same; exact Hk|exact Hg].
      * cf. rewrite Hk. eexists. split; [reflexivity|]. pf. cf. repeat (split; [reflexivity|]). split; [intros; split; reflexivity|]. split; [congruence|]. split; [left; reflexivity|]. intros _. split; [discriminate|]. intros _ w0 r l0 X. discriminate.
      * cf. rewrite Hk. eexists. split; [reflexivity|]. pf. cf. repeat (split; [reflexivity|]). split; [intros; split; reflexivity|]. split; [congruence|]. split; [left; reflexivity|]. intros _. split; [discriminate|]. intros _ w0 r l0 X. discriminate.
  - rewrite (Stay Hi). cf. rewrite Hk. assert (X : match k with SIdle => Some (queue_returned v g (set_queue (set_handler h' (queue s)) s)) | _ => Some (set_queue (set_handler h' (queue s)) s) end = Some (set_queue (set_handler h' (queue s)) s)) by (destruct k; try discriminate; reflexivity).
    rewrite X. eexists. split; [reflexivity|]. pf. cf. repeat (split; [reflexivity|]). split; [intros; split; reflexivity|]. split; [intros _; split; assumption|]. split; [left; reflexivity|]. intro Y. contradiction.
Qed.
Lemma lift_queue n m s v k q : PInv n m s -> nth_error (pstages s) v = Some PConsume -> nth_error (stages (queue s)) v = Some k -> qpop k = true -> cstep (queue s) (CQueue v) = Some q ->
  exists s' k', pstep s (PRun v 0) = Some s' /\ queue s' = q /\ nth_error (stages q) v = Some k' /\ slots_mutex s' = slots_mutex s /\
    (forall u, u <> v -> nth_error (stages q) u = nth_error (stages (queue s)) u /\ nth_error (pstages s') u = nth_error (pstages s) u) /\
    ((qpop k' = true /\ nth_error (pstages s') v = Some PConsume) \/ (k' = SIdle /\ (nth_error (pstages s') v = Some PEnded \/ exists x, nth_error (pstages s') v = Some (PTask x)))).
Proof.
  intros P Hg Hk Hq E. assert (Eo : cstep (queue s) (own k v 0) = Some q) by (destruct k; try discriminate; exact E).
  destruct (own_effect _ _ _ _ _ Hk Eo) as (k' & Hs & _ & Hf). assert (Hk' : nth_error (stages q) v = Some k') by (rewrite Hs; eapply nth_upd_same; exact Hk).
  assert (Cases : qpop k' = true \/ k' = SIdle) by (destruct k; try discriminate; destruct Hf as [[H _]|[H _]]; auto).
  cbn [pstep]. rewrite Hg. cbn [prun]. unfold in_queue_step. rewrite Hk. fold (own k v 0). rewrite Eo, Hk'.
  destruct Cases as [Hp| ->].
  - exists (set_queue q s), k'. split; [destruct k'; try discriminate; reflexivity|]. split; [reflexivity|]. split; [reflexivity|]. split; [reflexivity|].
    split; [intros u D; rewrite Hs, nth_upd_other by congruence; split; reflexivity|]. left. split; [exact Hp|exact Hg].
  - cbn [queue_returned]. pf. destruct (results q) as [|[u x|u r|u|u] rs]; try destruct r; (eexists; exists SIdle; split; [reflexivity|]; pf; split; [reflexivity|]; split; [reflexivity|]; split; [reflexivity|];
      split; [intros u0 D; rewrite Hs, !nth_upd_other by congruence; split; reflexivity|]; right; split; [reflexivity|]; rewrite (nth_upd_same _ _ _ _ Hg); eauto).
Qed.
Lemma join_kept s v pick s' t us : pstep s (PRun v pick) = Some s' -> t <> v -> nth_error (pstages s) t = Some (PJoin us) -> nth_error (pstages s') t = Some (PJoin us).
Proof.
  intros E D H. destruct (pstep_shape _ _ _ E) as [(H1 & _ & _)|[(u & g0 & g' & evs & B & Ht & Hs & _ & Hh)|(u & w & k & B & Ht & Hw & Hs & _ & _)]].
  - now rewrite H1.
  - assert (u = v) as -> by (destruct B as [(c & X)|[(pk & X)|(d & X)]]; congruence). rewrite Hs, nth_upd_other by congruence. exact H.
  - assert (u = v) as -> by (destruct B as [(c & X)|[(pk & X)|(d & X)]]; congruence). rewrite Hs, !nth_upd_other by congruence. exact H.
Qed.

(** ** A thread of a pool whose queue is disabled ends *)
Definition prank (p : pc N) : nat :=
  match p with WSleep _ _ => 7 | WLock _ | WWoken _ _ _ => 6 | WCheck _ | WTest _ _ | WFinal _ _ => 5 | WExit _ _ _ => 4 | WReason _ _ _ => 3 | WRet _ ConditionMet => 17 | WRet _ _ => 1 | _ => 0 end.
Definition krank (k : stage nat) (p : pc N) : nat :=
  match k with SWait => prank p | SPop => 16 | SEmpty => 15 | SSwap => 14 | SEmpty2 => 13 | SFront => 12 | SDrop _ => 11 | _ => 0 end.
Definition grank (g : pstage) (k : stage nat) (p : pc N) : nat := match g with PTask _ => 10 | PBody _ => 9 | PLoop => 8 | PConsume => krank k p | _ => 0 end.
Definition urank (s : pstate) (u : nat) : nat :=
  match nth_error (pstages s) u, nth_error (stages (queue s)) u, nth_error (threads (handler (queue s))) u with Some g, Some k, Some p => grank g k p | _, _, _ => 0 end.
Definition pop_rank (q : cstate nat) : nat :=
  match pop_mutex q with Some v => match nth_error (stages q) v with Some SEmpty => 5 | Some SSwap => 4 | Some SEmpty2 => 3 | Some SFront => 2 | _ => 1 end | None => 0 end.
Definition small (s : pstate) : nat := mutex_rank (handler (queue s)) + slots_rank s + pop_rank (queue s).
Definition weight (s : pstate) (u : nat) : nat := 100 * urank s u + small s.
Lemma small_bound s : small s <= 13.
Proof.
  unfold small. assert (A : mutex_rank (handler (queue s)) <= 6) by (unfold mutex_rank; destruct (mutex _) as [v|]; [|lia]; destruct (nth_error _ v) as [[]|]; cbn; lia).
  assert (B : slots_rank s <= 2) by (unfold slots_rank; destruct (slots_mutex s) as [v|]; [|lia]; destruct (nth_error _ v) as [[]|]; lia).
  assert (D : pop_rank (queue s) <= 5) by (unfold pop_rank; destruct (pop_mutex _) as [v|]; [|lia]; destruct (nth_error _ v) as [[]|]; lia). lia.
Qed.
Lemma woken_prank p q : woken N p q -> prank q <= prank p.
Proof. intros [-> |(c & H & ->)]; [lia|]. destruct p; try discriminate. cbn in H |- *. rewrite H. cbn. lia. Qed.
Lemma grank_woken g k p q : woken N p q -> grank g k q <= grank g k p.
Proof. intro W. destruct g; cbn; try lia. destruct k; cbn; try lia. exact (woken_prank _ _ W). Qed.

Definition advances (s : pstate) (u : nat) : Prop := exists v pick s', pstep s (PRun v pick) = Some s' /\ (forall t us, nth_error (pstages s) t = Some (PJoin us) -> nth_error (pstages s') t = Some (PJoin us)) /\
  (nth_error (pstages s') u = Some PEnded \/ exists g, nth_error (pstages s') u = Some g /\ pool_thread g = true /\ weight s' u < weight s u).
Lemma advance s u v pick s' gv : pstep s (PRun v pick) = Some s' -> nth_error (pstages s) v = Some gv -> (forall us, gv <> PJoin us) ->
  (nth_error (pstages s') u = Some PEnded \/ exists g, nth_error (pstages s') u = Some g /\ pool_thread g = true /\ weight s' u < weight s u) -> advances s u.
Proof. intros E Hv N H. exists v, pick, s'. split; [exact E|]. split; [|exact H]. intros t us Ht. apply (join_kept _ _ _ _ _ _ E); [|exact Ht]. intros ->. rewrite Hv in Ht. injection Ht as ->. exact (N us eq_refl). Qed.
(** the thread itself goes on *)
Lemma smaller s s' u g k p g' k' p' : nth_error (pstages s) u = Some g -> nth_error (stages (queue s)) u = Some k -> nth_error (threads (handler (queue s))) u = Some p ->
  nth_error (pstages s') u = Some g' -> nth_error (stages (queue s')) u = Some k' -> nth_error (threads (handler (queue s'))) u = Some p' -> grank g' k' p' < grank g k p -> weight s' u < weight s u.
Proof. intros H1 H2 H3 H4 H5 H6 L. unfold weight, urank. rewrite H1, H2, H3, H4, H5, H6. pose proof (small_bound s'). lia. Qed.

(** the owner of the mutex of the counter goes on *)
Lemma owner_advances n m s u g v : preachable any_label (pinit n m) s -> queue_off s -> nth_error (pstages s) u = Some g -> pool_thread g = true -> mutex (handler (queue s)) = Some v -> advances s u.
Proof.
  intros R Off Hu Hp Hm. destruct (preachable_qi _ _ _ _ R) as [P Q]. pose proof (preachable_slots _ _ _ _ R) as K. pose proof (creachable_cinv _ _ _ _ _ (pi_queue _ _ _ P)) as C. pose proof (ci_handler _ _ _ _ _ C) as Rh.
  pose proof (reachable_inv _ _ _ _ _ _ _ _ _ _ Rh) as Iv. destruct (owner_lemma _ _ _ _ _ Rh Hm) as (p & Hpv). destruct (inv_ok _ _ _ Iv v p Hpv) as ((_ & Hh) & _ & Loc). specialize (Hh Hm).
  destruct (same_length _ _ _ _ (eq_sym (ci_length _ _ _ _ _ C)) Hpv) as (k & Hkv). destruct (same_length _ _ _ _ (eq_sym (pi_length _ _ _ P)) Hkv) as (gv & Hgv).
  pose proof (pi_tie _ _ _ P _ _ _ Hgv Hkv) as T1. pose proof (ci_tie _ _ _ _ _ C _ _ _ Hkv Hpv) as T2.
  assert (Kk : k = SWait \/ k = SOther) by (destruct k; auto; cbn in T2; subst p; discriminate).
  assert (Kc : counting k = true) by (destruct Kk as [-> | ->]; reflexivity).
  assert (Kg : gv = PConsume \/ gv = PWaitTasks \/ gv = PQueueOff) by (destruct Kk as [-> | ->]; destruct gv; cbn in T1; auto; try discriminate; destruct T1; discriminate).
  assert (Nj : forall us, gv <> PJoin us) by (intros us ->; destruct Kg as [X|[X|X]]; discriminate).
  destruct (Nat.eq_dec v u) as [->|D].
  - (* the thread itself *)
    rewrite Hgv in Hu. injection Hu as <-. assert (gv = PConsume) as -> by (destruct Kg as [-> |[-> | ->]]; try discriminate; reflexivity).
    assert (k = SWait) as -> by (destruct Kk as [-> | ->]; [reflexivity|]; cbn in T1; destruct T1; discriminate).
    assert (Go : forall h' p', hstep (handler (queue s)) (Run u 0) = Some h' -> nth_error (threads h') u = Some p' -> p' <> Idle -> prank p' < prank p -> advances s u).
    { intros h' p' Eh H1 H2 H3. destruct (lift_run _ _ _ _ _ _ _ _ P Hgv Hkv Kc Eh) as (s' & Es & Hh' & _ & _ & Stay & _ & _). destruct Stay as [S1 S2]; [congruence|].
      eapply advance; [exact Es|exact Hgv|exact Nj|]. right. exists PConsume. split; [exact S2|]. split; [reflexivity|]. eapply smaller; [exact Hgv|exact Hkv|exact Hpv|exact S2|exact S1|rewrite Hh'; exact H1|]. exact H3. }
    unfold hstep, c_step in Go. cbn [step] in Go. rewrite Hpv in Go. unfold queue_off in Off. destruct p; try discriminate; cbn [run] in Go.
    + rewrite Off in Go. cbn [negb] in Go. eapply Go; [reflexivity|eapply nth_upd_same; exact Hpv|discriminate|cbn; lia].
    + unfold condition in Go. rewrite Off in Go. cbn [negb orb] in Go. eapply Go; [reflexivity|eapply nth_upd_same; exact Hpv|discriminate|cbn; lia].
    + eapply Go; [reflexivity|eapply nth_upd_same; exact Hpv|discriminate|cbn; lia].
    + eapply Go; [reflexivity|eapply nth_upd_same; exact Hpv|discriminate|cbn; lia].
    + rewrite Off in Go. cbn [negb] in Go. eapply Go; [reflexivity|eapply nth_upd_same; exact Hpv|discriminate|cbn; lia].
    + clear Go. assert (Eh : hstep (handler (queue s)) (Run u 0) = Some (emit (EvReturn u w r) (set_pc u Idle (set_mutex None (handler (queue s)))))) by (unfold hstep, c_step; cbn [step]; rewrite Hpv; reflexivity).
      destruct (lift_run _ _ _ _ _ _ _ _ P Hgv Hkv Kc Eh) as (s' & Es & Hh' & _ & _ & _ & _ & Back). destruct Back as [_ Back]; [eapply nth_upd_same; exact Hpv|]. specialize (Back eq_refl w r _ eq_refl).
      eapply advance; [exact Es|exact Hgv|exact Nj|]. destruct r; [left; exact Back|left; exact Back|]. destruct Back as [B1 B2]. right. exists PConsume. split; [exact B2|]. split; [reflexivity|].
      eapply smaller; [exact Hgv|exact Hkv|exact Hpv|exact B2|exact B1|rewrite Hh'; eapply nth_upd_same; exact Hpv|]. cbn. lia.
  - destruct (holder_runs _ _ _ _ _ Rh Hm) as (pick & h' & Eh & Hr). destruct (lift_run _ _ _ _ _ _ _ _ P Hgv Hkv Kc Eh) as (s' & Es & Hh' & Hpop & Other & _ & Hsl & _).
    destruct (Other u (not_eq_sym D)) as [O1 O2]. eapply advance; [exact Es|exact Hgv|exact Nj|]. right. exists g. rewrite O2. split; [exact Hu|]. split; [exact Hp|].
    destruct Hsl as [Hsl|[X _]]; [|destruct Kk; congruence]. destruct (thread_of _ _ _ _ _ P Hu) as (ku & pu & Hku & Hpu & _ & _).
    destruct (hrun _ _ _ _ _ _ _ Rh Eh) as (_ & p0 & p1 & _ & (_ & _ & _ & Hn) & _ & _). destruct (Hn u pu) as (pu' & Hpu' & W); [rewrite nth_upd_other by exact D; exact Hpu|].
    assert (U : urank s' u <= urank s u) by (unfold urank; rewrite O2, O1, Hh', Hpu', Hu, Hku, Hpu; exact (grank_woken _ _ _ _ W)).
    assert (A : slots_rank s' = slots_rank s).
    { unfold slots_rank. rewrite Hsl. destruct (slots_mutex s) as [x|] eqn:Hx; [|reflexivity]. apply K in Hx as (i & Hx). destruct (Other x) as [-> _]; [|reflexivity]. intros ->. rewrite Hgv in Hx. injection Hx as ->. destruct Kg as [X|[X|X]]; discriminate. }
    assert (B : pop_rank (queue s') = pop_rank (queue s)).
    { unfold pop_rank. rewrite Hpop. destruct (pop_mutex (queue s)) as [x|] eqn:Hx; [|reflexivity]. destruct (Other x) as [-> _]; [|reflexivity]. intros ->. apply (ci_pop _ _ _ _ _ C _ _ Hkv) in Hx. destruct Kk as [-> | ->]; discriminate. }
    unfold weight, small. rewrite A, B, Hh'. lia.
Qed.
Lemma thread_advances n m s u g : preachable any_label (pinit n m) s -> queue_off s -> nth_error (pstages s) u = Some g -> pool_thread g = true -> advances s u.
Proof.
  intros R Off Hu Hp. destruct (mutex (handler (queue s))) as [v|] eqn:Hm; [eapply owner_advances; eassumption|].
  destruct (preachable_qi _ _ _ _ R) as [P Q]. pose proof (preachable_slots _ _ _ _ R) as K. pose proof (creachable_cinv _ _ _ _ _ (pi_queue _ _ _ P)) as C. pose proof (ci_handler _ _ _ _ _ C) as Rh.
  pose proof (reachable_inv _ _ _ _ _ _ _ _ _ _ Rh) as Iv. pose proof (reachable_counter _ _ _ _ _ _ _ _ _ Rh) as Cn. destruct (thread_of _ _ _ _ _ P Hu) as (k & p & Hk & Hpu & T1 & T2).
  assert (Nj : forall us, g <> PJoin us) by (intros us ->; discriminate).
  destruct g; try discriminate.
  - (* before consume *)
    cbn in T1. subst k. cbn in T2. subst p. eapply (advance s u u 0); [|exact Hu|exact Nj|].
    + cbn [pstep]. rewrite Hu. cbn [prun]. unfold queue_call. cbn [cstep begin]. rewrite Hk. unfold hstep, c_step. cbn [step]. rewrite Hpu. reflexivity.
    + right. exists PConsume. pf. split; [eapply nth_upd_same; exact Hu|]. split; [reflexivity|]. eapply smaller; [exact Hu|exact Hk|exact Hpu| | | |]; pf; cf; [eapply nth_upd_same; exact Hu|eapply nth_upd_same; exact Hk|cbn [threads set_pc]; eapply nth_upd_same; exact Hpu|cbn; lia].
  - (* inside consume *)
    cbn in T1. destruct T1 as [-> |T1].
    + (* waiting *)
      cbn in T2. destruct T2 as (w & Hw & Ht).
      assert (Go : forall h' p', hstep (handler (queue s)) (Run u 0) = Some h' -> nth_error (threads h') u = Some p' -> p' <> Idle -> prank p' < prank p -> advances s u).
      { intros h' p' Eh H1 H2 H3. destruct (lift_run _ _ _ _ _ _ _ _ P Hu Hk eq_refl Eh) as (s' & Es & Hh' & _ & _ & Stay & _ & _). destruct Stay as [S1 S2]; [congruence|].
        eapply advance; [exact Es|exact Hu|exact Nj|]. right. exists PConsume. split; [exact S2|]. split; [reflexivity|]. eapply smaller; [exact Hu|exact Hk|exact Hpu|exact S2|exact S1|rewrite Hh'; exact H1|]. exact H3. }
      destruct (inv_ok _ _ _ Iv u p Hpu) as ((Hh & _) & _ & _). rewrite Hm in Hh.
      unfold hstep, c_step in Go. cbn [step] in Go. rewrite Hpu in Go. destruct p; try discriminate Hw; cbn [run] in Go; try (specialize (Hh eq_refl); discriminate).
      * rewrite Hm in Go. cbn [free] in Go. eapply Go; [reflexivity|eapply nth_upd_same; exact Hpu|discriminate|cbn; lia].
      * (* asleep: somebody is about to notify *)
        clear Go. injection Hw as ->. pose proof (ct_pc _ _ _ _ Cn u _ Hpu) as Cp. cbn in Cp. rewrite Ht in Cp. destruct Cp as [Cv _].
        destruct (inv_sleep _ _ _ Iv Off) as [(v & kk & Hv)|No]; [|specialize (No u _ Hpu); cbn in No; rewrite Cv in No; discriminate].
        destruct (Q v _ Hv) as [Ck _]. cbn in Ck. subst kk. destruct (same_length _ _ _ _ (eq_sym (ci_length _ _ _ _ _ C)) Hv) as (kv & Hkv). destruct (same_length _ _ _ _ (eq_sym (pi_length _ _ _ P)) Hkv) as (gv & Hgv).
        pose proof (ci_tie _ _ _ _ _ C _ _ _ Hkv Hv) as T3. assert (kv = SOther) as -> by (destruct kv; cbn in T3; try discriminate; try reflexivity; destruct T3 as (w0 & X & _); discriminate).
        pose proof (pi_tie _ _ _ P _ _ _ Hgv Hkv) as T4. assert (Nv : forall us, gv <> PJoin us) by (intros us ->; discriminate T4).
        assert (D : u <> v) by (intros ->; rewrite Hpu in Hv; discriminate).
        assert (Eh : hstep (handler (queue s)) (Run v 0) = Some (notify_all Main (after_disable v Kdisable (handler (queue s))))) by (unfold hstep, c_step; cbn [step]; rewrite Hv; reflexivity).
        destruct (lift_run _ _ _ _ _ _ _ _ P Hgv Hkv eq_refl Eh) as (s' & Es & Hh' & _ & Other & _ & _ & _). destruct (Other u D) as [O1 O2].
        eapply advance; [exact Es|exact Hgv|exact Nv|]. right. exists PConsume. rewrite O2. split; [exact Hu|]. split; [reflexivity|].
        eapply (smaller s s' u PConsume SWait _ PConsume SWait); [exact Hu|exact Hk|exact Hpu|rewrite O2; exact Hu|rewrite O1; exact Hk| |].
        -- rewrite Hh'. cbn [notify_all threads set_threads after_disable finish emit set_pc set_status]. rewrite nth_error_map, nth_upd_other by congruence. rewrite Hpu. reflexivity.
        -- cbn. rewrite Cv. cbn. lia.
      * rewrite Hm in Go. cbn [free] in Go. eapply Go; [reflexivity|eapply nth_upd_same; exact Hpu|destruct timedout; discriminate|destruct timedout; cbn; lia].
    + (* taking the element *)
      assert (Idl : p = Idle) by (destruct k; try discriminate; exact T2). subst p.
      assert (Go : forall q, cstep (queue s) (CQueue u) = Some q -> (forall k', nth_error (stages q) u = Some k' -> qpop k' = true -> krank k' Idle < krank k Idle) -> handler q = handler (queue s) -> advances s u).
      { intros q Eq Hr Hh. destruct (lift_queue _ _ _ _ _ _ P Hu Hk T1 Eq) as (s' & k' & Es & Hq & Hk' & _ & _ & [[H1 H2]|[-> [H2|(x & H2)]]]); (eapply advance; [exact Es|exact Hu|exact Nj|]).
        - right. exists PConsume. split; [exact H2|]. split; [reflexivity|]. eapply smaller; [exact Hu|exact Hk|exact Hpu|exact H2|rewrite Hq; exact Hk'|rewrite Hq, Hh; exact Hpu|]. exact (Hr k' Hk' H1).
        - left. exact H2.
        - right. exists (PTask x). split; [exact H2|]. split; [reflexivity|]. eapply smaller; [exact Hu|exact Hk|exact Hpu|exact H2|rewrite Hq; exact Hk'|rewrite Hq, Hh; exact Hpu|]. destruct k; try discriminate; cbn; lia. }
      cbn [cstep] in Go. rewrite Hk in Go. destruct k; try discriminate; cbn [queue_step] in Go.
      * (* pop_queue_mutex_ *)
        destruct (pop_mutex (queue s)) as [v|] eqn:Hx.
        -- clear Go. pose proof (ci_owner _ _ _ _ _ C v Hx) as Lv. destruct (nth_error (stages (queue s)) v) as [kv|] eqn:Hkv; [|apply nth_error_None in Hkv; lia].
           assert (Hpv : holds_pop nat kv = true) by (apply (ci_pop _ _ _ _ _ C _ _ Hkv); exact Hx). assert (D : u <> v) by (intros ->; rewrite Hk in Hkv; injection Hkv as <-; discriminate).
           destruct (same_length _ _ _ _ (eq_sym (pi_length _ _ _ P)) Hkv) as (gv & Hgv). pose proof (pi_tie _ _ _ P _ _ _ Hgv Hkv) as T3.
           assert (gv = PConsume) as -> by (destruct gv; cbn in T3; try (subst kv; discriminate); try reflexivity; destruct T3 as [-> | ->]; discriminate).
           assert (Qv : qpop kv = true) by (destruct kv; try discriminate; reflexivity).
           assert (Eq : exists q, cstep (queue s) (CQueue v) = Some q /\ handler q = handler (queue s) /\ pop_rank q < pop_rank (queue s)).
           { unfold pop_rank at 2. rewrite Hx, Hkv. cbn [cstep]. rewrite Hkv. unfold pop_rank. destruct kv; try discriminate; cbn [queue_step].
             - eexists. split; [reflexivity|]. split; [reflexivity|]. cf. rewrite Hx, (nth_upd_same _ _ _ _ Hkv). destruct (foreground (queue s)); lia.
             - eexists. split; [reflexivity|]. split; [reflexivity|]. cf. rewrite Hx, (nth_upd_same _ _ _ _ Hkv). lia.
             - destruct (foreground (queue s)); (eexists; split; [reflexivity|]; split; [reflexivity|]; cf); [lia|]. rewrite Hx, (nth_upd_same _ _ _ _ Hkv). lia.
             - destruct (foreground (queue s)); (eexists; split; [reflexivity|]; split; [reflexivity|]; cf); [lia|]. rewrite Hx, (nth_upd_same _ _ _ _ Hkv). lia.
             - destruct (foreground (queue s)); (eexists; split; [reflexivity|]; split; [reflexivity|]; cf); lia. }
           destruct Eq as (q & Eq & Hh & Hr). destruct (lift_queue _ _ _ _ _ _ P Hgv Hkv Qv Eq) as (s' & k' & Es & Hq & _ & Hsl & Other & _). destruct (Other u D) as [O1 O2].
           eapply advance; [exact Es|exact Hgv|discriminate|]. right. exists PConsume. rewrite O2. split; [exact Hu|]. split; [reflexivity|].
           assert (A : slots_rank s' = slots_rank s).
           { unfold slots_rank. rewrite Hsl, Hq. destruct (slots_mutex s) as [x|] eqn:Hy; [|reflexivity]. apply K in Hy as (i & Hy). destruct (Other x) as [-> _]; [|reflexivity]. intros ->. rewrite Hgv in Hy. discriminate. }
           assert (B : urank s' u = urank s u) by (unfold urank; rewrite O2, Hq, O1, Hh; reflexivity).
           unfold weight, small. rewrite A, B, Hq, Hh. lia.
        -- cbn [free] in Go. eapply Go; [reflexivity| |reflexivity]. cf. rewrite (nth_upd_same _ _ _ _ Hk). intros k' X _. injection X as <-. cbn. lia.
      * eapply Go; [reflexivity| |reflexivity]. cf. rewrite (nth_upd_same _ _ _ _ Hk). intros k' X _. injection X as <-. destruct (foreground (queue s)); cbn; lia.
      * eapply Go; [reflexivity| |reflexivity]. cf. rewrite (nth_upd_same _ _ _ _ Hk). intros k' X _. injection X as <-. cbn; lia.
      * destruct (foreground (queue s)); (eapply Go; [reflexivity| |reflexivity]); cf; rewrite (nth_upd_same _ _ _ _ Hk); intros k' X Y; injection X as <-; [discriminate Y|cbn; lia].
      * destruct (foreground (queue s)); (eapply Go; [reflexivity| |reflexivity]); cf; rewrite (nth_upd_same _ _ _ _ Hk); intros k' X Y; injection X as <-; [discriminate Y|cbn; lia].
      * destruct (foreground (queue s)); (eapply Go; [reflexivity| |reflexivity]); cf; rewrite (nth_upd_same _ _ _ _ Hk); intros k' X Y; injection X as <-; discriminate Y.
  - (* before slots_mutex_ *)
    cbn in T1. subst k. cbn in T2. subst p. destruct (slots_mutex s) as [v|] eqn:Hsm.
    + pose proof Hsm as Hsm'. apply K in Hsm' as (iv & Hgv). destruct (thread_of _ _ _ _ _ P Hgv) as (kv & pv & Hkv & Hpv & T3 & T4). assert (D : u <> v) by (intros ->; rewrite Hu in Hgv; discriminate).
      cbn in T3. destruct T3 as [-> | ->]; cbn in T4; subst pv.
      * assert (Eh : hstep (handler (queue s)) (Call v Increment) = Some (set_pc v ILock (handler (queue s)))) by (unfold hstep, c_step; cbn [step]; rewrite Hpv; reflexivity).
        eapply (advance s u v 0); [|exact Hgv|discriminate|].
        { cbn [pstep]. rewrite Hgv. cbn [prun]. unfold in_queue_step. rewrite Hkv. cbn [cstep]. rewrite Hkv. cbn [queue_step]. rewrite Eh. cbn [stages set_stage]. cf. rewrite (nth_upd_same _ _ _ _ Hkv). reflexivity. }
        right. exists (PTask id). pf. split; [exact Hu|]. split; [reflexivity|]. unfold weight, urank, small, slots_rank, mutex_rank, pop_rank. pf. cf. cbn [mutex set_pc threads].
        rewrite Hm, Hsm, Hkv, (nth_upd_same _ _ _ _ Hkv), !nth_upd_other by congruence. rewrite Hu, Hk, Hpu.
        destruct (pop_mutex (queue s)) as [x|] eqn:Hx; [|lia]. assert (Dx : v <> x) by (intros ->; apply (ci_pop _ _ _ _ _ C _ _ Hkv) in Hx; discriminate). rewrite nth_upd_other by exact Dx. lia.
      * assert (Eh : exists pick h', hstep (handler (queue s)) (Run v pick) = Some h' /\ nth_error (threads h') v = Some Idle /\ mutex h' = None).
        { unfold hstep, c_step. cbn [step]. rewrite Hpv. cbn [run]. rewrite Hm. cbn [free]. cbv zeta. set (s1 := set_pc v Idle _).
          assert (H1 : nth_error (threads s1) v = Some Idle) by (eapply nth_upd_same; exact Hpv). destruct (c_above 0 (value s1)).
          - destruct (some_pick Main s1) as (pick & s2 & E2). exists pick, s2. split; [exact E2|]. apply notified_one in E2 as (l & -> & (_ & _ & _ & Hn) & _).
            destruct (Hn v _ H1) as (p & Hq & W). apply woken_awake in W; [|discriminate]. subst p. split; [exact Hq|exact Hm].
          - exists 0, s1. split; [reflexivity|]. split; [exact H1|exact Hm]. }
        destruct Eh as (pick & h' & Eh & Ei & Em). destruct (lift_run _ _ _ _ _ _ _ _ P Hgv Hkv eq_refl Eh) as (s' & Es & Hh' & Hpop & Other & _ & _ & _). destruct (Other u D) as [O1 O2].
        assert (Hsl : slots_mutex s' = None).
        { destruct (slots_mutex s') as [x|] eqn:Hx; [|reflexivity]. exfalso. assert (R' : preachable any_label (pinit n m) s') by (econstructor; [exact R|exact I|exact Es]). apply (preachable_slots _ _ _ _ R') in Hx as (i & Hx).
          destruct (Nat.eq_dec x v) as [->|Dx].
          - destruct (pstep_shape _ _ _ Es) as [(H1 & _ & H2)|[(t & g0 & g' & evs & B & Ht & Hs & _ & Hh)|(t & w & j & B & Ht & _)]].
            + pose proof (pstep_pinv _ _ _ _ _ P Es) as P'. destruct (thread_of _ _ _ _ _ P' Hx) as (k1 & p1 & Hk1 & Hp1 & T5 & T6). rewrite Hh', Ei in Hp1. injection Hp1 as <-. cbn in T5.
              destruct T5 as [-> | ->]; cbn in T6; [|discriminate]. cbn [pstep] in Es. rewrite Hgv in Es. cbn [prun] in Es. unfold in_queue_step in Es. rewrite Hkv in Es. cbn [cstep] in Es. rewrite Hkv, Eh, Ei in Es. cbn [returned] in Es. revert Es. cf.
              rewrite (nth_upd_same _ _ _ _ Hkv). intro Es. injection Es as <-. cbn [queue_returned] in Hx. revert Hx. pf. rewrite (nth_upd_same _ _ _ _ Hgv). discriminate.
            + assert (t = v) as -> by (destruct B as [(c & X)|[(pk & X)|(d & X)]]; congruence). rewrite Hgv in Ht. injection Ht as <-. inversion Hh; subst; rewrite Hs, (nth_upd_same _ _ _ _ Hgv) in Hx; discriminate.
            + assert (t = v) as -> by (destruct B as [(c & X)|[(pk & X)|(d & X)]]; congruence). rewrite Hgv in Ht. discriminate.
          - destruct (Other x Dx) as [_ Y]. rewrite Y in Hx. assert (X : slots_mutex s = Some x) by (apply K; exists i; exact Hx). congruence. }
        eapply advance; [exact Es|exact Hgv|discriminate|]. right. exists (PTask id). rewrite O2. split; [exact Hu|]. split; [reflexivity|].
        destruct (hrun _ _ _ _ _ _ _ Rh Eh) as (_ & p0 & p1 & _ & (_ & _ & _ & Hn) & _ & _). destruct (Hn u Idle) as (pu' & Hpu' & W); [rewrite nth_upd_other by congruence; exact Hpu|].
        assert (B : pop_rank (queue s') = pop_rank (queue s)).
        { unfold pop_rank. rewrite Hpop. destruct (pop_mutex (queue s)) as [x|] eqn:Hx; [|reflexivity]. destruct (Other x) as [-> _]; [|reflexivity]. intros ->. apply (ci_pop _ _ _ _ _ C _ _ Hkv) in Hx. discriminate. }
        unfold weight, urank, small, slots_rank, mutex_rank. rewrite O1, O2, B, Hh', Hpu', Hu, Hk, Hpu, Em, Hm, Hsl, Hsm, Hkv. cbn. lia.
    + destruct (registered id s) eqn:Rg; (eapply (advance s u u 0); [cbn [pstep]; rewrite Hu; cbn [prun]; rewrite Hsm, Rg; reflexivity|exact Hu|exact Nj|]).
      * right. exists (PBody id). pf. split; [eapply nth_upd_same; exact Hu|]. split; [reflexivity|]. eapply smaller; [exact Hu|exact Hk|exact Hpu| | | |]; pf; [eapply nth_upd_same; exact Hu|exact Hk|exact Hpu|cbn; lia].
      * left. pf. eapply nth_upd_same. exact Hu.
  - (* executing the task *)
    eapply (advance s u u 0); [cbn [pstep]; rewrite Hu; reflexivity|exact Hu|exact Nj|]. right. exists PLoop. pf. split; [eapply nth_upd_same; exact Hu|]. split; [reflexivity|].
    eapply smaller; [exact Hu|exact Hk|exact Hpu| | | |]; pf; [eapply nth_upd_same; exact Hu|exact Hk|exact Hpu|cbn; lia].
Qed.

(** it ends *)
Lemma thread_ends n m u : forall k s g, weight s u <= k -> preachable any_label (pinit n m) s -> queue_off s -> nth_error (pstages s) u = Some g -> pool_thread g = true ->
  exists ls s', Forall goes_on ls /\ psteps s ls = Some s' /\ preachable any_label (pinit n m) s' /\ queue_off s' /\ nth_error (pstages s') u = Some PEnded /\
    (forall t us, nth_error (pstages s) t = Some (PJoin us) -> nth_error (pstages s') t = Some (PJoin us)).
Proof.
  induction k as [|k IH]; intros s g L R Off Hu Hp; destruct (thread_advances _ _ _ _ _ R Off Hu Hp) as (v & pick & s1 & E & J & D);
    (assert (R1 : preachable any_label (pinit n m) s1) by (econstructor; [exact R|exact I|exact E]));
    (assert (Off1 : queue_off s1) by (destruct (preachable_qi _ _ _ _ R) as [P Q]; exact (proj2 (pstep_qi _ _ _ _ _ P Q E) Off)));
    (assert (Last : nth_error (pstages s1) u = Some PEnded -> exists ls s', Forall goes_on ls /\ psteps s ls = Some s' /\ preachable any_label (pinit n m) s' /\ queue_off s' /\ nth_error (pstages s') u = Some PEnded /\
       (forall t us, nth_error (pstages s) t = Some (PJoin us) -> nth_error (pstages s') t = Some (PJoin us)))
      by (intro X; exists [PRun v pick], s1; split; [constructor; [exists v, pick; reflexivity|constructor]|]; split; [cbn [psteps]; rewrite E; reflexivity|]; repeat (split; [assumption|]); exact J));
    destruct D as [D|(g1 & D1 & D2 & D3)]; auto; [lia|].
  destruct (IH s1 g1) as (ls & s' & F & E' & R' & O' & U' & J'); [lia|exact R1|exact Off1|exact D1|exact D2|].
  exists (PRun v pick :: ls), s'. split; [constructor; [exists v, pick; reflexivity|exact F]|]. split; [cbn [psteps]; rewrite E; exact E'|]. repeat (split; [assumption|]). intros t us H. exact (J' _ _ (J _ _ H)).
Qed.

Definition disabled_by (s : pstate) (t : nat) : Prop :=
  exists ls s' evs, Forall goes_on ls /\ psteps s ls = Some s' /\ nth_error (pstages s') t = Some PIdle /\ events s' = EvDisabled t :: evs.
Lemma steps_app ls : forall ls' s s1, psteps s ls = Some s1 -> psteps s (ls ++ ls') = psteps s1 ls'.
Proof. induction ls as [|l ls IH]; intros ls' s s1 E; cbn [psteps app] in *; [injection E as ->; reflexivity|]. destruct (pstep s l) as [s2|]; [|discriminate]. exact (IH ls' _ _ E). Qed.
Lemma disabled_after s t ls s1 : Forall goes_on ls -> psteps s ls = Some s1 -> disabled_by s1 t -> disabled_by s t.
Proof. intros F E (ls' & s' & evs & F' & E' & H). exists (ls ++ ls'), s', evs. split; [apply Forall_app; split; assumption|]. split; [rewrite (steps_app _ _ _ _ E); exact E'|exact H]. Qed.

(** joining the threads ends *)
Lemma join_returns n m t : forall us s, preachable any_label (pinit n m) s -> nth_error (pstages s) t = Some (PJoin us) -> disabled_by s t.
Proof.
  induction us as [|u us IH]; intros s R Ht.
  - exists [PRun t 0]. eexists. exists (events s). split; [constructor; [exists t, 0; reflexivity|constructor]|]. split; [cbn [psteps pstep]; rewrite Ht; reflexivity|]. pf. split; [eapply nth_upd_same; exact Ht|reflexivity].
  - pose proof (preachable_down _ _ _ R) as D. destruct (dn_join _ D t _ u Ht (or_introl eq_refl)) as (g & Hu & M).
    assert (Fin : forall s1, preachable any_label (pinit n m) s1 -> nth_error (pstages s1) u = Some PEnded -> nth_error (pstages s1) t = Some (PJoin (u :: us)) -> disabled_by s1 t).
    { intros s1 R1 H1 H2. assert (E : pstep s1 (PRun t 0) = Some (set_pstage t (PJoin us) s1)) by (cbn [pstep]; rewrite H2; cbn [prun]; rewrite H1; reflexivity).
      apply (disabled_after s1 t [PRun t 0] (set_pstage t (PJoin us) s1)); [constructor; [exists t, 0; reflexivity|constructor]|cbn [psteps]; rewrite E; reflexivity|].
      apply IH; [econstructor; [exact R1|exact I|exact E]|]. pf. eapply nth_upd_same. exact H2. }
    destruct (pool_thread g) eqn:Hp.
    + destruct (thread_ends n m u (weight s u) s g (le_n _) R (dn_off _ D _ _ Ht) Hu Hp) as (ls & s1 & F & E & R1 & _ & U1 & J). apply (disabled_after s t ls s1 F E). apply Fin; [exact R1|exact U1|exact (J _ _ Ht)].
    + unfold mine in M. rewrite Hp in M. destruct g; try discriminate. apply Fin; assumption.
Qed.

(** ** Disabling the queue *)
Definition crank (p : pc N) : nat := match p with KLock _ => 4 | DTest _ => 3 | DStore _ => 2 | DNotify _ => 1 | _ => 0 end.
Definition status_rank (h : state N) : nat := match status h with Some v => match nth_error (threads h) v with Some p => crank p | None => 0 end | None => 0 end.
Definition own_crank (h : state N) (t : nat) : nat := match nth_error (threads h) t with Some p => crank p | None => 0 end.
Definition off_weight (h : state N) (t : nat) : nat := 100 * own_crank h t + 10 * status_rank h + mutex_rank h.
Lemma mutex_rank_bound h : mutex_rank h <= 6.
Proof. unfold mutex_rank. destruct (mutex h) as [v|]; [|lia]. destruct (nth_error (threads h) v) as [[]|]; cbn; lia. Qed.
Lemma status_rank_bound h : status_rank h <= 4.
Proof. unfold status_rank. destruct (status h) as [v|]; [|lia]. destruct (nth_error (threads h) v) as [[]|]; cbn; lia. Qed.
Lemma status_owner v en n h u : hreach v en n h -> status h = Some u -> exists p, nth_error (threads h) u = Some p.
Proof.
  intros R. revert u. induction R as [|h l h' R IH A E]; intros u Hu; [discriminate|].
  destruct (step_good _ _ _ _ _ _ _ _ (reachable_inv _ _ _ _ _ _ _ _ _ _ R) E) as [[-> ->]|(t & p & p' & M & _)]; [exact (IH u Hu)|].
  destruct (Nat.eq_dec u t) as [->|D]; [exists p'; exact (mv_self _ _ _ _ _ _ M)|].
  apply (mv_status _ _ _ _ _ _ M u D) in Hu. destruct (IH u Hu) as (q & Hq). destruct (mv_thr _ _ _ _ _ _ M) as (_ & _ & _ & Hn).
  destruct (Hn u q) as (q' & Hq' & _); [rewrite nth_upd_other by congruence; exact Hq|]. exists q'. exact Hq'.
Qed.
Lemma holder_status h v p pick h' : nth_error (threads h) v = Some p -> holds_mutex N p = true -> hstep h (Run v pick) = Some h' -> status h' = status h.
Proof.
  intros Hp Hh E. unfold hstep, c_step in E. cbn [step] in E. rewrite Hp in E. destruct p; try discriminate; cbn [run] in E.
  - destruct (negb (enabled h)); injection E as <-; reflexivity.
  - destruct (condition _ _); injection E as <-; reflexivity.
  - injection E as <-; reflexivity.
  - injection E as <-; reflexivity.
  - destruct (negb (enabled h)); [injection E as <-; reflexivity|]. destruct finished; [|injection E as <-; reflexivity]. destruct (w_take w); [|injection E as <-; reflexivity].
    unfold decrease in E. cbv zeta in E. destruct (c_above 0 _); [apply notified_one in E as (l & -> & _); reflexivity|]. destruct (c_reached 0 _); injection E as <-; reflexivity.
  - injection E as <-; reflexivity.
Qed.

Definition off_advances n m (s : pstate) (t : nat) : Prop := exists v pick s', pstep s (PRun v pick) = Some s' /\ preachable any_label (pinit n m) s' /\
  ((exists us, nth_error (pstages s') t = Some (PJoin us)) \/ (nth_error (pstages s') t = Some PQueueOff /\ off_weight (handler (queue s')) t < off_weight (handler (queue s)) t)).
Lemma off_next n m s t : preachable any_label (pinit n m) s -> nth_error (pstages s) t = Some PQueueOff -> off_advances n m s t.
Proof.
  intros R Ht. destruct (preachable_qi _ _ _ _ R) as [P Q]. pose proof (creachable_cinv _ _ _ _ _ (pi_queue _ _ _ P)) as C. pose proof (ci_handler _ _ _ _ _ C) as Rh.
  pose proof (reachable_inv _ _ _ _ _ _ _ _ _ _ Rh) as Iv. destruct (dn_ctrl _ (preachable_down _ _ _ R) t Ht) as (p & Hp & Hc). destruct (inv_ok _ _ _ Iv t p Hp) as ((Hmt & _) & (Hst & _) & _).
  assert (Rn : forall v pick s', pstep s (PRun v pick) = Some s' -> preachable any_label (pinit n m) s') by (intros v pick s' E; econstructor; [exact R|exact I|exact E]).
  (* a thread that takes a step of the counter is inside an operation of the queue *)
  assert (Any : forall v q, nth_error (threads (handler (queue s))) v = Some q -> holds_mutex N q = true \/ holds_status N q = true \/ ctrl q ->
    exists k g, nth_error (stages (queue s)) v = Some k /\ nth_error (pstages s) v = Some g /\ counting k = true).
  { intros v q Hq Hy. destruct (same_length _ _ _ _ (eq_sym (ci_length _ _ _ _ _ C)) Hq) as (k & Hk). destruct (same_length _ _ _ _ (eq_sym (pi_length _ _ _ P)) Hk) as (g & Hg). exists k, g. split; [exact Hk|]. split; [exact Hg|].
    pose proof (ci_tie _ _ _ _ _ C _ _ _ Hk Hq) as T2. destruct k; try reflexivity; cbn in T2; subst q; destruct Hy as [X|[X|X]]; try discriminate; destruct X. }
  assert (Go : forall v q pick h', nth_error (threads (handler (queue s))) v = Some q -> holds_mutex N q = true \/ holds_status N q = true \/ ctrl q -> hstep (handler (queue s)) (Run v pick) = Some h' ->
    (v = t -> nth_error (threads h') t = Some Idle \/ off_weight h' t < off_weight (handler (queue s)) t) -> (v <> t -> off_weight h' t < off_weight (handler (queue s)) t) -> off_advances n m s t).
  { intros v q pick h' Hq Hy Eh H1 H2. destruct (Any v q Hq Hy) as (k & g & Hk & Hg & Kc). destruct (lift_run _ _ _ _ _ _ _ _ P Hg Hk Kc Eh) as (s' & Es & Hh' & _ & Other & Stay & _ & Back).
    exists v, pick, s'. split; [exact Es|]. split; [exact (Rn _ _ _ Es)|]. destruct (Nat.eq_dec v t) as [->|D].
    - rewrite Ht in Hg. injection Hg as <-. assert (Dn : {nth_error (threads h') t = Some Idle} + {nth_error (threads h') t <> Some Idle}) by (destruct (nth_error (threads h') t) as [[]|]; try (right; discriminate); left; reflexivity).
      destruct Dn as [X|X]; [left; exists (pool_threads s); exact (proj1 (Back X) eq_refl)|]. right. split; [exact (proj2 (Stay X))|]. rewrite Hh'. destruct (H1 eq_refl); [contradiction|assumption].
    - right. destruct (Other t (not_eq_sym D)) as [_ O2]. rewrite O2, Hh'. split; [exact Ht|exact (H2 D)]. }
  assert (Awake : forall v pick h' u q, hstep (handler (queue s)) (Run v pick) = Some h' -> u <> v -> nth_error (threads (handler (queue s))) u = Some q -> (forall w dl, q <> WSleep w dl) -> nth_error (threads h') u = Some q).
  { intros v pick h' u q Eh D Hq Aw. destruct (hrun _ _ _ _ _ _ _ Rh Eh) as (_ & p0 & p1 & _ & (_ & _ & _ & Hn) & _ & _). destruct (Hn u q) as (q' & Hq' & W); [rewrite nth_upd_other by congruence; exact Hq|].
    apply woken_awake in W; [|exact Aw]. subst q'. exact Hq'. }
  destruct (mutex (handler (queue s))) as [v|] eqn:Hm.
  - (* the owner of the mutex of the counter *)
    destruct (owner_lemma _ _ _ _ _ Rh Hm) as (q & Hq). destruct (inv_ok _ _ _ Iv v q Hq) as ((_ & Hh) & _ & _). specialize (Hh Hm).
    destruct (holder_runs _ _ _ _ _ Rh Hm) as (pick & h' & Eh & Hr). assert (D : v <> t) by (intros ->; rewrite Hq in Hp; injection Hp as ->; destruct p; discriminate || contradiction).
    eapply (Go v q pick h' Hq (or_introl Hh) Eh); [intro; contradiction|]. intros _.
    assert (A : own_crank h' t = own_crank (handler (queue s)) t) by (unfold own_crank; rewrite (Awake _ _ _ _ _ Eh (not_eq_sym D) Hp (ctrl_awake _ Hc)), Hp; reflexivity).
    assert (B : status_rank h' = status_rank (handler (queue s))).
    { unfold status_rank. rewrite (holder_status _ _ _ _ _ Hq Hh Eh). destruct (status (handler (queue s))) as [x|] eqn:Hx; [|reflexivity]. destruct (status_owner _ _ _ _ _ Rh Hx) as (px & Hpx).
      destruct (inv_ok _ _ _ Iv x px Hpx) as (_ & (_ & Hs) & _). specialize (Hs Hx). assert (Dx : x <> v) by (intros ->; rewrite Hq in Hpx; injection Hpx as <-; destruct q; discriminate).
      rewrite (Awake _ _ _ _ _ Eh Dx Hpx), Hpx; [reflexivity|]. intros w dl ->. discriminate. }
    unfold off_weight. rewrite A, B. lia.
  - pose proof (mutex_rank_bound (handler (queue s))) as Bm.
    (* the thread itself, but for status_mutex_ taken by another *)
    assert (Own : forall pick h' p', hstep (handler (queue s)) (Run t pick) = Some h' -> nth_error (threads h') t = Some p' -> p' = Idle \/ crank p' < crank p -> off_advances n m s t).
    { intros pick h' p' Eh H1 H2. eapply (Go t p pick h' Hp (or_intror (or_intror Hc)) Eh); [|congruence]. intros _. destruct H2 as [-> |H2]; [left; exact H1|right].
      unfold off_weight, own_crank. rewrite H1, Hp. pose proof (mutex_rank_bound h'). pose proof (status_rank_bound h'). lia. }
    assert (Run1 : forall v q, nth_error (threads (handler (queue s))) v = Some q -> ctrl q -> holds_status N q = true ->
      exists h' q', hstep (handler (queue s)) (Run v 0) = Some h' /\ nth_error (threads h') v = Some q' /\ mutex h' = None /\ (q' = Idle /\ status h' = None \/ crank q' < crank q /\ status h' = status (handler (queue s)))).
    { intros v q Hq Cq Hs. unfold hstep, c_step. cbn [step]. rewrite Hq. destruct q; try contradiction; destruct k; try contradiction; try discriminate; cbn [run].
      - destruct (enabled (handler (queue s))); eexists; eexists; (split; [reflexivity|]); (split; [eapply nth_upd_same; exact Hq|]); (split; [exact Hm|]); [right; split; [cbn; lia|reflexivity]|left; split; reflexivity].
      - rewrite Hm. cbn [free]. eexists. eexists. split; [reflexivity|]. split; [eapply nth_upd_same; exact Hq|]. split; [exact Hm|]. right. split; [cbn; lia|reflexivity].
      - eexists. exists Idle. split; [reflexivity|]. split; [|split; [exact Hm|left; split; reflexivity]]. cbn [notify_all threads set_threads]. rewrite nth_error_map. cbn [after_disable finish emit set_pc set_status threads]. rewrite (nth_upd_same _ _ _ _ Hq). reflexivity. }
    destruct (holds_status N p) eqn:Hsp.
    + destruct (Run1 t p Hp Hc Hsp) as (h' & p' & Eh & H1 & _ & H2). eapply Own; [exact Eh|exact H1|]. destruct H2 as [[-> _]|[H2 _]]; auto.
    + destruct (status (handler (queue s))) as [v|] eqn:Hx.
      * destruct (status_owner _ _ _ _ _ Rh Hx) as (q & Hq). destruct (inv_ok _ _ _ Iv v q Hq) as (_ & (_ & Hs) & _). specialize (Hs Hx). destruct (Q v q Hq) as [Cq _].
        assert (Cq' : ctrl q) by (destruct q; try discriminate; cbn in Cq; try contradiction; subst; exact I). assert (D : v <> t) by (intros ->; rewrite Hp in Hq; injection Hq as <-; congruence).
        destruct (Run1 v q Hq Cq' Hs) as (h' & q' & Eh & H1 & Em & H2). eapply (Go v q 0 h' Hq (or_intror (or_introl Hs)) Eh); [intro; contradiction|]. intros _.
        assert (A : own_crank h' t = own_crank (handler (queue s)) t) by (unfold own_crank; rewrite (Awake _ _ _ _ _ Eh (not_eq_sym D) Hp (ctrl_awake _ Hc)), Hp; reflexivity).
        assert (B : status_rank h' < status_rank (handler (queue s))).
        { unfold status_rank. rewrite Hx, Hq. destruct H2 as [[_ ->]|[H2 ->]]; [destruct q; try contradiction; try discriminate; cbn; lia|]. rewrite H1. exact H2. }
        assert (Z : mutex_rank h' = 0) by (unfold mutex_rank; rewrite Em; reflexivity). unfold off_weight. rewrite A, Z. lia.
      * destruct p; try contradiction; try discriminate. destruct k; try contradiction. eapply (Own 0); [unfold hstep, c_step; cbn [step]; rewrite Hp; cbn [run]; rewrite Hx; cbn [free]; reflexivity|eapply nth_upd_same; exact Hp|right; cbn; lia].
Qed.
Lemma off_returns n m t : forall k s, off_weight (handler (queue s)) t <= k -> preachable any_label (pinit n m) s -> nth_error (pstages s) t = Some PQueueOff -> disabled_by s t.
Proof.
  induction k as [|k IH]; intros s L R Ht; destruct (off_next _ _ _ _ R Ht) as (v & pick & s1 & E & R1 & [(us & J)|(H1 & H2)]);
    try (apply (disabled_after s t [PRun v pick] s1); [constructor; [exists v, pick; reflexivity|constructor]|cbn [psteps]; rewrite E; reflexivity|exact (join_returns n m t us s1 R1 J)]); [lia|].
  apply (disabled_after s t [PRun v pick] s1); [constructor; [exists v, pick; reflexivity|constructor]|cbn [psteps]; rewrite E; reflexivity|]. apply IH; [lia|exact R1|exact H1].
Qed.
Lemma disable_returns_lemma : forall n m s t g, preachable any_label (pinit n m) s -> nth_error (pstages s) t = Some g -> disabling g = true ->
  exists ls s' evs, Forall goes_on ls /\ psteps s ls = Some s' /\ nth_error (pstages s') t = Some PIdle /\ events s' = EvDisabled t :: evs.
Proof.
  intros n m s t g R Ht Hg. change (disabled_by s t). destruct g; try discriminate.
  - destruct (preachable_qi _ _ _ _ R) as [P _]. destruct (thread_of _ _ _ _ _ P Ht) as (k & p & Hk & Hp & T1 & T2). cbn in T1. subst k. cbn in T2. subst p.
    assert (E : exists s1, pstep s (PRun t 0) = Some s1 /\ ((nth_error (pstages s1) t = Some PIdle /\ events s1 = EvDisabled t :: events s) \/ nth_error (pstages s1) t = Some PQueueOff)).
    { cbn [pstep]. rewrite Ht. cbn [prun]. destruct (pool_enabled s).
      - unfold queue_call. pf. cbn [cstep begin]. rewrite Hk. unfold hstep, c_step. cbn [step]. rewrite Hp. eexists. split; [reflexivity|]. right. pf. eapply nth_upd_same. exact Ht.
      - eexists. split; [reflexivity|]. left. pf. split; [eapply nth_upd_same; exact Ht|reflexivity]. }
    destruct E as (s1 & E & [[H1 H2]|H1]); (apply (disabled_after s t [PRun t 0] s1); [constructor; [exists t, 0; reflexivity|constructor]|cbn [psteps]; rewrite E; reflexivity|]).
    + exists [], s1, (events s). split; [constructor|]. split; [reflexivity|]. split; assumption.
    + apply (off_returns n m t _ s1 (le_n _)); [econstructor; [exact R|exact I|exact E]|exact H1].
  - exact (off_returns n m t _ s (le_n _) R Ht).
  - exact (join_returns n m t left s R Ht).
Qed.
