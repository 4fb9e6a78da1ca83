(** Proofs of C154. *)
From Coq Require Import NArith List Bool Arith Lia ZifyBool ZifyNat ZifyN.
From Verif Require Import Wait_spec Wait_proofs Consumer_model Consumer_spec Consumer_proofs ConsumerRest_spec.
From Verif Require Pool_proofs PoolTask_proofs PoolDown_proofs PoolRuns_proofs.
Import ListNotations.
Notation hreach v en n := (reachable (c_above 0) (c_reached 0) c_incr c_decr counter_client (init v en n)).
Ltac cf := cbn [handler set_stage set_handler set_queues set_pop set_produced report stages pop_mutex foreground background produced results].

Section Rest.
Context {T : Type}.
Implicit Types s : cstate T.

Lemma rest_run v en n s t pick h' : CInv T v en n s -> at_rest s -> hstep (handler s) (Run t pick) = Some h' -> False.
Proof.
  intros C Z Eh. assert (X : exists p, nth_error (threads (handler s)) t = Some p) by (unfold hstep, c_step in Eh; cbn [step] in Eh; destruct (nth_error (threads (handler s)) t) as [p|]; [exists p; reflexivity|discriminate]).
  destruct X as (p & Hp). destruct (PoolTask_proofs.same_length _ _ _ _ (eq_sym (ci_length _ _ _ _ _ C)) Hp) as (k & Hk).
  assert (Y : cstep s (CRun t pick) = None) by (apply Z; left; eauto). cbn [cstep] in Y. rewrite Hk, Eh in Y. destruct (nth_error (threads h') t) as [[]|]; discriminate.
Qed.
Lemma rest_mutex v en n s : CInv T v en n s -> at_rest s -> mutex (handler s) = None.
Proof.
  intros C Z. destruct (mutex (handler s)) as [u|] eqn:Hm; [exfalso|reflexivity]. destruct (PoolTask_proofs.holder_runs _ _ _ _ _ (ci_handler _ _ _ _ _ C) Hm) as (pick & h' & Eh & _). eapply rest_run; eassumption.
Qed.
(** in the counter, threads sleep *)
Lemma rest_pc v en n s t p : CInv T v en n s -> at_rest s -> nth_error (threads (handler s)) t = Some p -> p = Idle \/ exists w dl, p = WSleep w dl.
Proof.
  intros C Z Hp. pose proof (rest_mutex _ _ _ _ C Z) as Hm. pose proof (ci_handler _ _ _ _ _ C) as Rh. pose proof (reachable_inv _ _ _ _ _ _ _ _ _ _ Rh) as Iv.
  assert (Go : forall u q, nth_error (threads (handler s)) u = Some q -> (exists pick h', run (c_above 0) (c_reached 0) c_incr c_decr u q pick (handler s) = Some h') -> False).
  { intros u q Hq (pick & h' & E). apply (rest_run _ _ _ _ u pick h' C Z). unfold hstep, c_step. cbn [step]. rewrite Hq. exact E. }
  assert (Own : forall u q, nth_error (threads (handler s)) u = Some q -> holds_status N q = true -> False).
  { intros u q Hq Hs. apply (Go u q Hq). destruct q; try discriminate Hs; exists 0; cbn [run]; rewrite ?Hm; cbn [free]; try (eexists; reflexivity).
    - destruct (enabled (handler s)); eexists; reflexivity.
    - destruct (waiting (handler s)); [destruct k|]; eexists; reflexivity.
    - destruct (enabled (handler s)); eexists; reflexivity. }
  destruct (inv_ok _ _ _ Iv t p Hp) as ((Hh & _) & _ & _). rewrite Hm in Hh.
  destruct p; try (left; reflexivity); try (specialize (Hh eq_refl); discriminate); try (exfalso; exact (Own t _ Hp eq_refl)); try (right; eexists; eexists; reflexivity); exfalso.
  - apply (Go t _ Hp). exists 0. cbn [run]. rewrite Hm. eexists. reflexivity.
  - apply (Go t _ Hp). exists 0. cbn [run]. rewrite Hm. eexists. reflexivity.
  - apply (Go t _ Hp). exists 0. cbn [run]. rewrite Hm. eexists. reflexivity.
  - apply (Go t _ Hp). exists 0. cbn [run]. eexists. reflexivity.
  - apply (Go t _ Hp). cbn [run]. rewrite Hm. cbn [free]. cbv zeta. destruct (c_above 0 _); [|exists 0; eexists; reflexivity]. apply PoolTask_proofs.some_pick.
  - apply (Go t _ Hp). exists 0. cbn [run]. rewrite Hm. eexists. reflexivity.
  - destruct (status (handler s)) as [u|] eqn:Hx.
    + destruct (PoolDown_proofs.status_owner _ _ _ _ _ Rh Hx) as (q & Hq). destruct (inv_ok _ _ _ Iv u q Hq) as (_ & (_ & Hs) & _). exact (Own u q Hq (Hs Hx)).
    + apply (Go t _ Hp). exists 0. cbn [run]. rewrite Hx. eexists. reflexivity.
Qed.
(** outside of it, they are idle *)
Lemma rest_stage v en n s t g : CInv T v en n s -> at_rest s -> nth_error (stages s) t = Some g -> g = SIdle \/ g = SWait \/ g = SOther.
Proof.
  intros C Z Hg. assert (Go : forall u k, nth_error (stages s) u = Some k -> (exists s', queue_step u k s = Some s') -> False).
  { intros u k Hk (s' & E). assert (Y : cstep s (CQueue u) = None) by (apply Z; right; eauto). cbn [cstep] in Y. rewrite Hk in Y. congruence. }
  assert (Own : forall u k, nth_error (stages s) u = Some k -> holds_pop T k = true -> False).
  { intros u k Hk Hh. apply (Go u k Hk). destruct k; try discriminate; cbn [queue_step]; try (eexists; reflexivity); destruct (foreground s); eexists; reflexivity. }
  destruct (PoolTask_proofs.same_length _ _ _ _ (ci_length _ _ _ _ _ C) Hg) as (p & Hp). pose proof (ci_tie _ _ _ _ _ C _ _ _ Hg Hp) as Tt.
  destruct g; auto; exfalso; try exact (Own t _ Hg eq_refl).
  - cbn in Tt. subst p. apply (Go t _ Hg). cbn [queue_step]. unfold hstep, c_step. cbn [step]. rewrite Hp. eexists. reflexivity.
  - cbn in Tt. subst p. destruct (rest_pc _ _ _ _ _ _ C Z Hp) as [X|(w & dl & X)]; discriminate.
  - destruct (pop_mutex s) as [u|] eqn:Hx.
    + pose proof (ci_owner _ _ _ _ _ C u Hx) as Lu. destruct (nth_error (stages s) u) as [k|] eqn:Hk; [|apply nth_error_None in Hk; lia]. exact (Own u k Hk (proj2 (ci_pop _ _ _ _ _ C _ _ Hk) Hx)).
    + apply (Go t _ Hg). cbn [queue_step]. rewrite Hx. eexists. reflexivity.
Qed.
Lemma rest_debt v en n s : CInv T v en n s -> at_rest s -> debt T s = 0.
Proof.
  intros C Z. unfold debt.
  assert (A : forall t p, nth_error (threads (handler s)) t = Some p -> granted p = false /\ incrementing p = false) by (intros t p Hp; destruct (rest_pc _ _ _ _ _ _ C Z Hp) as [->|(w & dl & ->)]; split; reflexivity).
  assert (G : count granted (threads (handler s)) = 0) by (apply count_zero; intros t p Hp; exact (proj1 (A t p Hp))).
  assert (I : count incrementing (threads (handler s)) = 0) by (apply count_zero; intros t p Hp; exact (proj2 (A t p Hp))).
  assert (P : count (popping T) (stages s) = 0) by (apply count_zero; intros t g Hg; destruct (rest_stage _ _ _ _ _ _ C Z Hg) as [->|[->| ->]]; reflexivity).
  lia.
Qed.

Lemma produce_lemma : forall v en n s t, creachable (cinit v en n) s -> at_rest s -> ~ producing s t.
Proof.
  intros v en n s t R Z H. pose proof (creachable_cinv _ _ _ _ _ R) as C. destruct H as [H|(x & H)]; destruct (rest_stage _ _ _ _ _ _ C Z H) as [X|[X|X]]; discriminate.
Qed.
Lemma consume_lemma : forall en n s t, bounded (cinit 0%N en n) s -> at_rest s -> consuming s t -> enabled (handler s) = true /\ consumed s = produced s.
Proof.
  intros en n s t B Z (g & Hg & Hc). destruct (bounded_bal _ _ _ _ B) as (C & Bl & _). pose proof (ci_handler _ _ _ _ _ C) as Rh. destruct (rest_stage _ _ _ _ _ _ C Z Hg) as [->|[->| ->]]; try contradiction. clear Hc.
  destruct (PoolTask_proofs.same_length _ _ _ _ (ci_length _ _ _ _ _ C) Hg) as (p & Hp). pose proof (ci_tie _ _ _ _ _ C _ _ _ Hg Hp) as Tt. cbn in Tt. destruct Tt as (w & Hw & Htk).
  destruct (rest_pc _ _ _ _ _ _ C Z Hp) as [->|(w' & dl & ->)]; [discriminate|]. injection Hw as ->.
  pose proof (ct_pc _ _ _ _ (reachable_counter _ _ _ _ _ _ _ _ _ Rh) t _ Hp) as Cp. unfold counter_pc in Cp. cbn in Cp. rewrite Htk in Cp. destruct Cp as [Cv Cpr].
  assert (Quiet : forall u q, nth_error (threads (handler s)) u = Some q -> (awake_taker q || about_to_notify q) = false) by (intros u q Hq; destruct (rest_pc _ _ _ _ _ _ C Z Hq) as [->|(w1 & dl1 & ->)]; reflexivity).
  assert (En : enabled (handler s) = true).
  { destruct (enabled (handler s)) eqn:En; [reflexivity|exfalso]. pose proof (inv_sleep _ _ _ (reachable_inv _ _ _ _ _ _ _ _ _ _ Rh)) as Sl. unfold sleepers_ok in Sl.
    destruct (Sl En) as [(u & k & Hu)|Sl']; [destruct (rest_pc _ _ _ _ _ _ C Z Hu) as [X|(w1 & dl1 & X)]; discriminate|]. specialize (Sl' t _ Hp). cbn in Sl'. rewrite Cv in Sl'. discriminate. }
  split; [exact En|].
  assert (V : value (handler s) = 0%N).
  { destruct (c_above 0 (value (handler s))) eqn:Ab; [|unfold c_above in Ab; lia]. exfalso.
    destruct (counter_wakeup_lemma _ _ _ _ _ _ _ _ _ t _ Rh Hp) as (u & q & Hu & Hq); [cbn; rewrite Cv; reflexivity|exact En|exact Ab|]. rewrite (Quiet u q Hu) in Hq. discriminate. }
  pose proof (ba_sum _ _ _ Bl) as Sum. rewrite V, (rest_debt _ _ _ _ C Z) in Sum. unfold in_queue in Sum. rewrite (ci_order _ _ _ _ _ C).
  destruct (foreground s); [|cbn in Sum; lia]. destruct (background s); [|cbn in Sum; lia]. symmetry. apply app_nil_r.
Qed.

Lemma bounded_threshold en n s : bounded (cinit 0%N en n) s -> Threshold N (c_reached 0) (handler s).
Proof.
  intros B. induction B as [|s l s' B IH E L].
  - intros t w dl Hp. apply Wait_proofs.nth_repeat in Hp. discriminate.
  - destruct (bounded_bal _ _ _ _ B) as (C & Bl & Lt). pose proof (ci_handler _ _ _ _ _ C) as Rh.
    assert (St : forall hl, threshold_client (c_reached 0) c_incr (handler s) hl -> hstep (handler s) hl = Some (handler s') -> Threshold N (c_reached 0) (handler s')).
    { intros hl Cl Eh. eapply step_threshold; [|exact (reachable_inv _ _ _ _ _ _ _ _ _ _ Rh)|exact (reachable_counter _ _ _ _ _ _ _ _ _ Rh)|exact IH|exact Cl|exact Eh]. intros v Hv. unfold c_above, c_reached in *. lia. }
    destruct l as [t c|t|t pick|t|t|]; cbn [cstep] in E.
    + destruct (nth_error (stages s) t) as [k|]; [|discriminate]. destruct k; try discriminate. destruct (begin c) as [g o] eqn:Eb. destruct o as [o|]; [|injection E as <-; exact IH].
      destruct (hstep (handler s) (Call t o)) as [h|] eqn:Eh; [|discriminate]. injection E as <-. apply (St (Call t o)); [|exact Eh]. split; [|exact I]. destruct c; cbn in Eb; try discriminate Eb; injection Eb as <- <-; exact I.
    + destruct (nth_error (stages s) t) as [k|]; [|discriminate]. destruct k; cbn [queue_step] in E; try discriminate.
      1: { destruct (hstep (handler s) (Call t Increment)) as [h|] eqn:Eh; [|discriminate]. injection E as <-. apply (St (Call t Increment)); [split; exact I|exact Eh]. }
      all: repeat match type of E with context [if ?x then _ else _] => destruct x | context [match ?x with [] => _ | _ => _ end] => destruct x end; try discriminate; injection E as <-; exact IH.
    + destruct (nth_error (stages s) t) as [k|] eqn:Hk; [|discriminate]. destruct (hstep (handler s) (Run t pick)) as [h|] eqn:Eh; [|discriminate].
      assert (Hh : handler s' = h) by (destruct (nth_error (threads h) t) as [[]|]; injection E as <-; try reflexivity; destruct k; cbn [returned]; try reflexivity; cf; destruct (log h) as [|[? ? []| |] ?]; reflexivity).
      apply (St (Run t pick)); [|rewrite Hh; exact Eh]. split; [exact I|]. intro Hi. pose proof (ba_sum _ _ _ Bl) as Sum. unfold debt in Sum.
      assert (Pos : 0 < count incrementing (threads (handler s))).
      { destruct (count incrementing (threads (handler s))) eqn:X; [|lia]. pose proof (proj1 (count_zero incrementing _) X t _ Hi). discriminate. }
      unfold c_reached, c_incr. rewrite N.mod_small by lia. lia.
    + destruct (hstep (handler s) (Spurious t)) as [h|] eqn:Eh; [|discriminate]. injection E as <-. apply (St (Spurious t)); [split; exact I|exact Eh].
    + destruct (hstep (handler s) (Expire t)) as [h|] eqn:Eh; [|discriminate]. injection E as <-. apply (St (Expire t)); [split; exact I|exact Eh].
    + destruct (hstep (handler s) Tick) as [h|] eqn:Eh; [|discriminate]. injection E as <-. apply (St Tick); [split; exact I|exact Eh].
Qed.
Lemma elsewhere_lemma : forall en n s t, bounded (cinit 0%N en n) s -> at_rest s -> elsewhere s t -> awaits_all s t /\ consumed s <> produced s.
Proof.
  intros en n s t B Z Hg. unfold elsewhere in Hg. destruct (bounded_bal _ _ _ _ B) as (C & Bl & _). pose proof (ci_handler _ _ _ _ _ C) as Rh.
  destruct (PoolTask_proofs.same_length _ _ _ _ (ci_length _ _ _ _ _ C) Hg) as (p & Hp). pose proof (ci_tie _ _ _ _ _ C _ _ _ Hg Hp) as Tt. cbn in Tt. destruct Tt as (_ & Ni & Htk).
  destruct (rest_pc _ _ _ _ _ _ C Z Hp) as [->|(w & dl & ->)]; [contradiction|]. specialize (Htk w eq_refl).
  pose proof (ct_pc _ _ _ _ (reachable_counter _ _ _ _ _ _ _ _ _ Rh) t _ Hp) as Cp. unfold counter_pc in Cp. cbn in Cp. rewrite Htk in Cp. destruct Cp as [Cv _].
  split; [exists w, dl; split; [exact Hp|exact Cv]|]. pose proof (bounded_threshold _ _ _ B t w dl Hp Cv) as V.
  pose proof (ba_sum _ _ _ Bl) as Sum. rewrite (rest_debt _ _ _ _ C Z) in Sum. unfold in_queue in Sum. rewrite (ci_order _ _ _ _ _ C). intro X.
  assert (Hl : length (consumed s) = length (consumed s ++ foreground s ++ background s)) by (rewrite <- X; reflexivity). rewrite !app_length in Hl. unfold c_reached in V. lia.
Qed.

(** ** Executions without new calls end *)
Definition ctl (p : pc N) : Prop :=
  match p with
  | KLock k => k = Kenable \/ k = Kdisable | DTest k | DStore k | DNotify k => k = Kdisable | ETest k | EStore k => k = Kenable
  | STest | BLoop _ | BMutex _ | BNotify _ => False | _ => True
  end.
Lemma woken_ctl p q : woken N p q -> ctl p -> ctl q.
Proof. intros [->|(c & H & ->)]; [trivial|]. destruct p; try discriminate. cbn in *. rewrite H. trivial. Qed.
Lemma run_ctl h u p pick h' q : nth_error (threads h) u = Some p -> ctl p -> hstep h (Run u pick) = Some h' -> nth_error (threads h') u = Some q -> ctl q.
Proof.
  intros Hp C E Hq. unfold hstep, c_step in E. cbn [step] in E. rewrite Hp in E.
  assert (U : forall x, nth_error (upd (threads h) u x) u = Some x) by (intros x; eapply nth_upd_same; exact Hp).
  assert (One : forall h1 x, notify_one Main pick h1 = Some h' -> threads h1 = upd (threads h) u x -> ctl x -> ctl q).
  { intros h1 x E1 Ht Cx. apply notified_one in E1 as (l' & -> & (_ & _ & Hn & _) & _). cbn in Hq. destruct (Hn u q Hq) as (p0 & H0 & W). rewrite Ht, U in H0. injection H0 as <-. exact (woken_ctl _ _ W Cx). }
  assert (All : forall c h1 x, h' = notify_all c h1 -> threads h1 = upd (threads h) u x -> ctl x -> ctl q).
  { intros c h1 x -> Ht Cx. cbn in Hq. rewrite nth_error_map, Ht, U in Hq. injection Hq as <-. exact (woken_ctl _ _ (wake_woken _ c x) Cx). }
  assert (Plain : forall x, threads h' = upd (threads h) u x -> ctl x -> ctl q) by (intros x Ht Cx; rewrite Ht, U in Hq; injection Hq as <-; exact Cx).
  destruct p; cbn [run] in E; try discriminate; cbn [ctl] in C; try contradiction.
  - destruct (free (mutex h)); [|discriminate]. injection E as <-. eapply Plain; [reflexivity|exact I].
  - destruct (negb (enabled h)); injection E as <-; (eapply Plain; [reflexivity|exact I]).
  - destruct (condition _ _); injection E as <-; (eapply Plain; [reflexivity|exact I]).
  - destruct (free (mutex h)); [|discriminate]. injection E as <-. eapply Plain; [reflexivity|destruct timedout; exact I].
  - injection E as <-. eapply Plain; [reflexivity|exact I].
  - injection E as <-. eapply Plain; [reflexivity|exact I].
  - cbv zeta in E. destruct (if negb (enabled h) then Disabled else if finished then ConditionMet else Timeout); try (injection E as <-; eapply Plain; [reflexivity|exact I]).
    destruct (w_take w); [|injection E as <-; eapply Plain; [reflexivity|exact I]]. unfold decrease in E. cbv zeta in E. destruct (c_above 0 _); [eapply One; [exact E|reflexivity|exact I]|].
    destruct (c_reached 0 _); injection E as <-; [eapply All; [reflexivity|reflexivity|exact I]|eapply Plain; [reflexivity|exact I]].
  - injection E as <-. eapply Plain; [reflexivity|exact I].
  - destruct (free (mutex h)); [|discriminate]. injection E as <-. eapply Plain; [reflexivity|destruct notify; exact I].
  - injection E as <-. eapply All; [reflexivity|reflexivity|exact I].
  - destruct (free (mutex h)); [|discriminate]. cbv zeta in E. destruct (c_above 0 _); [eapply One; [exact E|reflexivity|exact I]|injection E as <-; eapply Plain; [reflexivity|exact I]].
  - destruct (free (mutex h)); [|discriminate]. injection E as <-. eapply Plain; [reflexivity|exact I].
  - destruct (free (status h)); [|discriminate]. injection E as <-. eapply Plain; [reflexivity|]. destruct C as [-> | ->]; reflexivity.
  - subst k. destruct (enabled h); injection E as <-; (eapply Plain; [reflexivity|]); [reflexivity|exact I].
  - subst k. destruct (free (mutex h)); [|discriminate]. injection E as <-. eapply Plain; reflexivity.
  - subst k. injection E as <-. eapply All; [reflexivity|reflexivity|exact I].
  - subst k. destruct (enabled h); injection E as <-; (eapply Plain; [reflexivity|]); [exact I|reflexivity].
  - subst k. destruct (free (mutex h)); [|discriminate]. injection E as <-. eapply Plain; [reflexivity|exact I].
Qed.
Definition all_ctl s : Prop := forall t p, nth_error (threads (handler s)) t = Some p -> ctl p.
Lemma simply_reach v en n s : simply (cinit v en n) s -> creachable (cinit v en n) s.
Proof. intro H. induction H as [|s l s' H IH _ E]; [constructor|econstructor; eassumption]. Qed.
Lemma hstep_ctl v en n h l h' : hreach v en n h -> counter_client h l -> (forall t k, l = Call t (Control k) -> k = Kenable \/ k = Kdisable) -> hstep h l = Some h' -> (forall t p, nth_error (threads h) t = Some p -> ctl p) -> forall t p, nth_error (threads h') t = Some p -> ctl p.
Proof.
  intros R Cc Sw E A t q Hq. destruct l as [u o|u pick|u|u|].
  - destruct (hcall _ _ _ _ _ _ _ R E Cc) as (_ & Hi & Ht & _). rewrite Ht in Hq. destruct (Nat.eq_dec t u) as [->|D].
    + rewrite (nth_upd_same _ _ _ _ Hi) in Hq. injection Hq as <-. destruct o; cbn; try exact I. exact (Sw u k eq_refl).
    + rewrite nth_upd_other in Hq by congruence. exact (A t q Hq).
  - destruct (hrun _ _ _ _ _ _ _ R E) as (_ & p & p' & Hp & (_ & _ & Hn & _) & Hp' & _). destruct (Nat.eq_dec t u) as [->|D].
    + exact (run_ctl _ _ _ _ _ _ Hp (A u p Hp) E Hq).
    + destruct (Hn t q Hq) as (p0 & H0 & W). rewrite nth_upd_other in H0 by congruence. exact (woken_ctl _ _ W (A t p0 H0)).
  - unfold hstep, c_step in E. cbn [step] in E. destruct (nth_error (threads h) u) as [p|] eqn:Hp; [|discriminate]. destruct p; try discriminate. injection E as <-. cbn in Hq. destruct (Nat.eq_dec t u) as [->|D].
    + rewrite (nth_upd_same _ _ _ _ Hp) in Hq. injection Hq as <-. exact I.
    + rewrite nth_upd_other in Hq by congruence. exact (A t q Hq).
  - unfold hstep, c_step in E. cbn [step] in E. destruct (nth_error (threads h) u) as [p|] eqn:Hp; [|discriminate]. destruct p; try discriminate. destruct dl as [d|]; [|discriminate]. destruct (d <=? now h); [|discriminate]. injection E as <-. cbn in Hq. destruct (Nat.eq_dec t u) as [->|D].
    + rewrite (nth_upd_same _ _ _ _ Hp) in Hq. injection Hq as <-. exact I.
    + rewrite nth_upd_other in Hq by congruence. exact (A t q Hq).
  - injection E as <-. exact (A t q Hq).
Qed.
(** what a step does to the counter *)
Lemma cstep_counter s l s' : cstep s l = Some s' -> handler s' = handler s \/ exists hl, counter_client (handler s) hl /\ (simple l -> forall t k, hl = Call t (Control k) -> k = Kenable \/ k = Kdisable) /\ hstep (handler s) hl = Some (handler s').
Proof.
  intro E. destruct l as [t c|t|t pick|t|t|]; cbn [cstep] in E.
  - destruct (nth_error (stages s) t) as [k|]; [|discriminate]. destruct k; try discriminate. destruct (begin c) as [g o] eqn:Eb. destruct o as [o|]; [|injection E as <-; left; reflexivity].
    destruct (hstep (handler s) (Call t o)) as [h|] eqn:Eh; [|discriminate]. injection E as <-. right. exists (Call t o). split; [destruct c; cbn in Eb; try discriminate Eb; injection Eb as <- <-; exact I|]. split; [|exact Eh].
    intros Sm t' k X. injection X as -> ->. destruct c; cbn in Eb; try discriminate Eb. injection Eb as <- <-. exact (Sm t' k0 eq_refl).
  - destruct (nth_error (stages s) t) as [k|]; [|discriminate]. destruct k; cbn [queue_step] in E; try discriminate.
    1: { destruct (hstep (handler s) (Call t Increment)) as [h|] eqn:Eh; [|discriminate]. injection E as <-. right. exists (Call t Increment). split; [exact I|]. split; [discriminate|exact Eh]. }
    all: left; repeat match type of E with context [if ?x then _ else _] => destruct x | context [match ?x with [] => _ | _ => _ end] => destruct x end; try discriminate; injection E as <-; reflexivity.
  - destruct (nth_error (stages s) t) as [k|]; [|discriminate]. destruct (hstep (handler s) (Run t pick)) as [h|] eqn:Eh; [|discriminate].
    assert (Hh : handler s' = h) by (destruct (nth_error (threads h) t) as [[]|]; injection E as <-; try reflexivity; destruct k; cbn [returned]; try reflexivity; cf; destruct (log h) as [|[? ? []| |] ?]; reflexivity).
    right. exists (Run t pick). split; [exact I|]. split; [discriminate|]. rewrite Hh. exact Eh.
  - destruct (hstep (handler s) (Spurious t)) as [h|] eqn:Eh; [|discriminate]. injection E as <-. right. exists (Spurious t). split; [exact I|]. split; [discriminate|exact Eh].
  - destruct (hstep (handler s) (Expire t)) as [h|] eqn:Eh; [|discriminate]. injection E as <-. right. exists (Expire t). split; [exact I|]. split; [discriminate|exact Eh].
  - destruct (hstep (handler s) Tick) as [h|] eqn:Eh; [|discriminate]. injection E as <-. right. exists Tick. split; [exact I|]. split; [discriminate|exact Eh].
Qed.
Lemma simply_ctl v en n s : simply (cinit v en n) s -> all_ctl s.
Proof.
  intro H. induction H as [|s l s' H IH Sm E].
  - intros t p Hp. apply Wait_proofs.nth_repeat in Hp. subst p. exact I.
  - pose proof (creachable_cinv _ _ _ _ _ (simply_reach _ _ _ _ H)) as C. destruct (cstep_counter _ _ _ E) as [Hh|(hl & Cc & Sw & Eh)]; [intros t p Hp; rewrite Hh in Hp; exact (IH t p Hp)|].
    intros t p Hp. exact (hstep_ctl _ _ _ _ _ _ (ci_handler _ _ _ _ _ C) Cc (Sw Sm) Eh IH t p Hp).
Qed.

Import PoolRuns_proofs.
Definition wr (b cm : nat) (p : pc N) : nat := match p with ETest _ => 2 | EStore _ => 1 | _ => wrk b cm p end.
Definition kr (b : nat) (k : stage T) (p : pc N) : nat :=
  match k with
  | SIdle => 0 | SPush _ => unit_cost b + 2 * b + 2 | SIncrement => unit_cost b + 2 * b + 1 | SWait => wr b 17 p | SPop => 16 | SEmpty => 15 | SSwap => 14 | SEmpty2 => 13 | SFront => 12 | SDrop _ => 11
  | SOther => wr b 1 p
  end.
Definition tr s (t : nat) : nat := match nth_error (stages s) t, nth_error (threads (handler s)) t with Some k, Some p => kr (length (stages s)) k p | _, _ => 0 end.
Definition potential s : nat := unit_cost (length (stages s)) * N.to_nat (value (handler s)) + total (tr s) (length (stages s)).
Lemma woken_wr b cm p q : woken N p q -> wr b cm q <= wr b cm p + 2.
Proof. intros [->|(c & H & ->)]; [lia|]. destruct p; try discriminate. cbn in *. rewrite H. cbn. lia. Qed.
Lemma woken_kr b k p q : woken N p q -> kr b k q <= kr b k p + 2.
Proof. intro W. destruct k; cbn [kr]; try lia; apply woken_wr; exact W. Qed.
Lemma drop_one s s' u c : length (stages s') = length (stages s) -> u < length (stages s) -> (forall t, t < length (stages s) -> t <> u -> tr s' t <= tr s t + c) ->
  unit_cost (length (stages s)) * N.to_nat (value (handler s')) + tr s' u + c * length (stages s) < unit_cost (length (stages s)) * N.to_nat (value (handler s)) + tr s u -> potential s' < potential s.
Proof. intros L Hv H D. unfold potential. rewrite L. pose proof (total_one (tr s) (tr s') c u _ Hv H). lia. Qed.
Lemma queue_drops v en n s u s' : CInv T v en n s -> cstep s (CQueue u) = Some s' -> potential s' < potential s.
Proof.
  intros C E. cbn [cstep] in E. destruct (nth_error (stages s) u) as [k|] eqn:Hk; [|discriminate]. assert (Hu : u < length (stages s)) by (apply nth_error_Some; congruence).
  destruct (PoolTask_proofs.same_length _ _ _ _ (ci_length _ _ _ _ _ C) Hk) as (p & Hp). pose proof (ci_tie _ _ _ _ _ C _ _ _ Hk Hp) as Tt.
  assert (Go : forall k' p', stages s' = upd (stages s) u k' -> threads (handler s') = upd (threads (handler s)) u p' -> value (handler s') = value (handler s) -> kr (length (stages s)) k' p' < kr (length (stages s)) k p -> potential s' < potential s).
  { intros k' p' H1 H2 H3 H4. assert (L : length (stages s') = length (stages s)) by (rewrite H1; apply upd_length). apply (drop_one s s' u 0); [exact L|exact Hu| |].
    - intros t _ D. unfold tr. rewrite L, H1, H2, !nth_upd_other by congruence. lia.
    - unfold tr. rewrite L, H1, H2, H3, (nth_upd_same _ _ _ _ Hk), (nth_upd_same _ _ _ _ Hp), Hk, Hp. lia. }
  assert (Id : threads (handler s) = upd (threads (handler s)) u p) by (symmetry; apply upd_same; exact Hp).
  destruct k; cbn [queue_step] in E; try discriminate.
  - cbn in Tt. subst p. unfold hstep, c_step in E. cbn [step] in E. rewrite Hp in E. injection E as <-. eapply Go; [reflexivity|reflexivity|reflexivity|]. cbn [kr]. lia.
  - destruct (free (pop_mutex s)); [|discriminate]. injection E as <-. eapply Go; [reflexivity|exact Id|reflexivity|]. cbn [kr]. lia.
  - injection E as <-. eapply Go; [reflexivity|exact Id|reflexivity|]. destruct (foreground s); cbn [kr]; lia.
  - injection E as <-. eapply Go; [reflexivity|exact Id|reflexivity|]. cbn [kr]. lia.
  - destruct (foreground s); injection E as <-; (eapply Go; [reflexivity|exact Id|reflexivity|]; cbn [kr]; lia).
  - destruct (foreground s); injection E as <-; (eapply Go; [reflexivity|exact Id|reflexivity|]; cbn [kr]; lia).
  - destruct (foreground s); injection E as <-; (eapply Go; [reflexivity|exact Id|reflexivity|]; cbn [kr]; lia).
Qed.
(** a step of the counter, with those of enable *)
Lemma run_rank_all b v en n h u p pick h' : hreach v en n h -> nth_error (threads h) u = Some p -> ctl p -> hstep h (Run u pick) = Some h' ->
  (exists p', nth_error (threads h') u = Some p' /\ hmove b h h' u p p' /\ Pool_proofs.ctrl_ok p) \/
  (exists p', nth_error (threads h') u = Some p' /\ value h' = value h /\ PoolRuns_proofs.quiet h h' u /\ wr b 1 p' < wr b 1 p /\ wait_of N p = None).
Proof.
  intros R Hp C E. assert (D : Pool_proofs.ctrl_ok p \/ p = KLock Kenable \/ p = ETest Kenable \/ p = EStore Kenable).
  { destruct p; cbn in C |- *; try contradiction; try (left; exact I); try (left; exact C); try (subst k; auto). destruct C as [-> | ->]; auto. }
  destruct D as [D|D].
  - left. destruct (run_rank b _ _ _ _ _ _ _ _ R Hp D E) as (p' & H1 & H2). exists p'. auto.
  - right. unfold hstep, c_step in E. cbn [step] in E. rewrite Hp in E. assert (Qt : forall p' h1, threads h1 = upd (threads h) u p' -> PoolRuns_proofs.quiet h h1 u) by (intros p' h1 Ht t Dt; rewrite Ht, nth_upd_other by congruence; reflexivity).
    destruct D as [-> |[-> | ->]]; cbn [run] in E.
    + destruct (free (status h)); [|discriminate]. injection E as <-. eexists. split; [eapply nth_upd_same; exact Hp|]. split; [reflexivity|]. split; [eapply Qt; reflexivity|]. split; [cbn; lia|reflexivity].
    + destruct (enabled h); injection E as <-; (eexists; split; [eapply nth_upd_same; exact Hp|]; split; [reflexivity|]; split; [eapply Qt; reflexivity|]; split; [cbn; lia|reflexivity]).
    + destruct (free (mutex h)); [|discriminate]. injection E as <-. eexists. split; [eapply nth_upd_same; exact Hp|]. split; [reflexivity|]. split; [eapply Qt; reflexivity|]. split; [cbn; lia|reflexivity].
Qed.
Lemma run_drops v en n s u pick s' : CInv T v en n s -> all_ctl s -> cstep s (CRun u pick) = Some s' -> potential s' < potential s.
Proof.
  intros C A E. pose proof (ci_handler _ _ _ _ _ C) as Rh. cbn [cstep] in E. destruct (nth_error (stages s) u) as [k|] eqn:Hk; [|discriminate]. destruct (hstep (handler s) (Run u pick)) as [h|] eqn:Eh; [|discriminate].
  assert (Hu : u < length (stages s)) by (apply nth_error_Some; congruence). destruct (PoolTask_proofs.same_length _ _ _ _ (ci_length _ _ _ _ _ C) Hk) as (p & Hp). pose proof (ci_tie _ _ _ _ _ C _ _ _ Hk Hp) as Tt.
  assert (Kc : k = SIncrement \/ k = SWait \/ k = SOther).
  { destruct k; auto; exfalso; cbn in Tt; subst p; unfold hstep, c_step in Eh; cbn [step] in Eh; rewrite Hp in Eh; discriminate. }
  set (b := length (stages s)) in *.
  (* what the step does, for the stage after it *)
  assert (Shape : forall p', nth_error (threads h) u = Some p' -> exists k', handler s' = h /\ stages s' = upd (stages s) u k' /\
    (p' <> Idle -> k' = k) /\ (p' = Idle -> k' = match k, log h with SWait, EvReturn _ _ ConditionMet :: _ => SPop | SWait, EvReturn _ _ _ :: _ => SIdle | SWait, _ => SWait | _, _ => SIdle end)).
  { intros p' Hp'. rewrite Hp' in E. assert (Id : stages s = upd (stages s) u k) by (symmetry; apply upd_same; exact Hk). assert (Dn : {p' = Idle} + {p' <> Idle}) by (destruct p'; try (right; discriminate); left; reflexivity). destruct Dn as [-> |Dn].
    - destruct Kc as [-> |[-> | ->]]; cbn [returned] in E; [injection E as <-; eexists; split; [reflexivity|]; split; [reflexivity|]; split; [contradiction|reflexivity]| |injection E as <-; eexists; split; [reflexivity|]; split; [reflexivity|]; split; [contradiction|reflexivity]].
      revert E. cf. destruct (log h) as [|[? ? []| |] ?]; intro E; injection E as <-; eexists; (split; [reflexivity|]); (split; [first [reflexivity|exact Id]|]); (split; [contradiction|reflexivity]).
    - exists k. assert (s' = set_handler h s) as -> by (destruct p'; try contradiction; congruence). split; [reflexivity|]. split; [exact Id|]. split; [reflexivity|contradiction]. }
  assert (Tv : tr s u = kr b k p) by (unfold tr; rewrite Hk, Hp; reflexivity).
  assert (Own : forall p' k', nth_error (threads h) u = Some p' -> handler s' = h -> stages s' = upd (stages s) u k' -> tr s' u = kr b k' p' /\ length (stages s') = b).
  { intros p' k' H1 H2 H3. assert (L : length (stages s') = b) by (rewrite H3; apply upd_length). split; [|exact L]. unfold tr. rewrite L, H3, H2, (nth_upd_same _ _ _ _ Hk), H1. reflexivity. }
  assert (Oq : forall k', PoolRuns_proofs.quiet (handler s) h u -> handler s' = h -> stages s' = upd (stages s) u k' -> forall t, t < b -> t <> u -> tr s' t <= tr s t + 0).
  { intros k' Qt H2 H3 t _ D. unfold tr. rewrite H3, upd_length, nth_upd_other by congruence. rewrite H2, (Qt t D). lia. }
  assert (On : forall k', noisy (handler s) h u -> handler s' = h -> stages s' = upd (stages s) u k' -> forall t, t < b -> t <> u -> tr s' t <= tr s t + 2).
  { intros k' Qt H2 H3 t _ D. unfold tr. rewrite H3, upd_length, nth_upd_other by congruence. rewrite H2. destruct (nth_error (stages s) t) as [kt|] eqn:Hkt; [|lia]. destruct (PoolTask_proofs.same_length _ _ _ _ (ci_length _ _ _ _ _ C) Hkt) as (pt & Hpt).
    rewrite Hpt. destruct (Qt t pt D Hpt) as (pt' & -> & W). apply woken_kr. exact W. }
  assert (Wr : forall cm q, Pool_proofs.ctrl_ok q -> wr b cm q = wrk b cm q) by (intros cm q Cq; destruct q; try reflexivity; contradiction).
  destruct (run_rank_all b _ _ _ _ _ _ _ _ Rh Hp (A u p Hp) Eh) as [(p' & Hp' & M & Ck)|(p' & Hp' & Va & Qt & Rk & Nw)].
  - destruct (Shape p' Hp') as (k' & Hh & Hs & Kn & Ki). destruct (Own p' k' Hp' Hh Hs) as [Tv' L]. assert (Dn : {p' = Idle} + {p' <> Idle}) by (destruct p'; try (right; discriminate); left; reflexivity).
    assert (Ck' : Pool_proofs.ctrl_ok p') by (unfold hstep, c_step in Eh; cbn [step] in Eh; rewrite Hp in Eh; exact (proj2 (Pool_proofs.run_ctrl _ _ _ _ _ Eh Hp Ck) p' Hp')).
    inversion M as [Va Qt R1 R17|Hi Hi' Va Qt|kk Hi Hi' Va Qt|w dl fin Hi Hi' Va Qt].
    + apply (drop_one s s' u 0); [exact L|exact Hu|exact (Oq k' Qt Hh Hs)|]. fold b. rewrite Tv, Tv', Hh, Va. destruct Kc as [-> |[-> | ->]].
      * exfalso. cbn in Tt. subst p. cbn in R1. lia.
      * cbn in Tt. destruct Tt as (w & Hw & Htk). destruct (R17 w Hw Htk) as [[X Y]|(r & -> & -> & Lg)].
        -- rewrite (Kn X). cbn [kr]. rewrite !Wr by assumption. lia.
        -- rewrite (Ki eq_refl), Lg. destruct r; cbn; lia.
      * destruct Dn as [X|X]; [rewrite (Ki X), X; cbn [kr]; rewrite Wr by assumption; lia|]. rewrite (Kn X). cbn [kr]. rewrite !Wr by assumption. lia.
    + subst p p'. assert (k = SIncrement) as ->.
      { destruct Kc as [-> |[-> | ->]]; [reflexivity|destruct Tt as (w & X & _); discriminate X|destruct Tt as (X & _); contradiction]. }
      apply (drop_one s s' u 2); [exact L|exact Hu|exact (On k' Qt Hh Hs)|]. fold b. rewrite Tv, Tv', Hh, (Ki eq_refl). cbn [kr]. unfold unit_cost in *. nia.
    + subst p p'. assert (k = SOther) as ->.
      { destruct Kc as [-> |[-> | ->]]; [discriminate Tt|destruct Tt as (w & X & _); discriminate X|reflexivity]. }
      apply (drop_one s s' u 2); [exact L|exact Hu|exact (On k' Qt Hh Hs)|]. fold b. rewrite Tv, Tv', Hh, Va, (Ki eq_refl). cbn. lia.
    + subst p p'. apply (drop_one s s' u 2); [exact L|exact Hu|exact (On k' Qt Hh Hs)|]. fold b. rewrite Tv, Tv', Hh, (Kn ltac:(discriminate)).
      assert (X : kr b k (WRet w ConditionMet) <= kr b k (WReason w dl fin) + 15) by (destruct k; cbn; lia). unfold unit_cost. nia.
  - destruct (Shape p' Hp') as (k' & Hh & Hs & Kn & Ki). destruct (Own p' k' Hp' Hh Hs) as [Tv' L]. assert (Dn : {p' = Idle} + {p' <> Idle}) by (destruct p'; try (right; discriminate); left; reflexivity).
    assert (k = SOther) as ->.
    { destruct Kc as [-> |[-> | ->]]; [cbn in Tt; subst p; cbn in Rk; lia|destruct Tt as (w & X & _); congruence|reflexivity]. }
    apply (drop_one s s' u 0); [exact L|exact Hu|exact (Oq k' Qt Hh Hs)|]. fold b. rewrite Tv, Tv', Hh, Va. destruct Dn as [X|X]; [rewrite (Ki X); cbn [kr]; lia|]. rewrite (Kn X). cbn [kr]. lia.
Qed.
Lemma ends_lemma : forall v en n s, simply (cinit v en n) s -> exists k, forall ls s', Forall goes_on ls -> csteps s ls = Some s' -> length ls <= k.
Proof.
  intros v en n s R. exists (potential s). intros ls. revert s R. induction ls as [|l ls IH]; intros s R s' F E; [cbn; lia|]. inversion F as [|? ? G F']; subst. cbn [csteps] in E.
  destruct (cstep s l) as [s1|] eqn:E1; [|discriminate]. pose proof (creachable_cinv _ _ _ _ _ (simply_reach _ _ _ _ R)) as C.
  assert (D : potential s1 < potential s) by (destruct G as [(t & pick & ->)|(t & ->)]; [eapply run_drops; [exact C|exact (simply_ctl _ _ _ _ R)|exact E1]|eapply queue_drops; [exact C|exact E1]]).
  assert (R1 : simply (cinit v en n) s1) by (econstructor; [exact R| |exact E1]; intros t k X; subst l; destruct G as [(t0 & pick & X)|(t0 & X)]; discriminate).
  pose proof (IH s1 R1 s' F' E). cbn [length]. lia.
Qed.
End Rest.
