(** Proofs about the thread pool. *)
From Coq Require Import NArith List Bool Arith Lia ZifyBool ZifyNat ZifyN.
From Verif Require Import Wait_spec Wait_proofs Consumer_model Consumer_spec Consumer_proofs Pool_model Pool_spec.
Import ListNotations.

(** ** Steps of the queue *)
Definition qpop (k : stage nat) : bool := popping nat k.

Definition own (k : stage nat) (t pick : nat) : clabel nat := match k with SIncrement | SWait | SOther => CRun t pick | _ => CQueue t end.

Definition effect (q q' : cstate nat) (t : nat) (k k' : stage nat) : Prop :=
  stages q' = upd (stages q) t k' /\ produced q' = produced q ++ match k with SPush x => [x] | _ => [] end /\
  match k with
  | SIdle => False
  | SPush _ => k' = SIncrement /\ results q' = results q
  | SIncrement => (k' = SIncrement \/ k' = SIdle) /\ results q' = results q
  | SOther => (k' = SOther \/ k' = SIdle) /\ results q' = results q
  | SWait => ((k' = SWait \/ k' = SPop) /\ results q' = results q) \/ (k' = SIdle /\ exists r, r <> ConditionMet /\ results q' = RThrow t r :: results q)
  | _ => (qpop k' = true /\ results q' = results q) \/ (k' = SIdle /\ exists r, (forall u r', r <> RThrow u r') /\ results q' = r :: results q)
  end.

Ltac cf := cbn [handler set_stage set_handler set_queues set_pop set_produced report stages pop_mutex foreground background produced results].

Lemma own_effect q q' t pick k : nth_error (stages q) t = Some k -> cstep q (own k t pick) = Some q' -> exists k', effect q q' t k k'.
Proof.
  intros Hk E. assert (Same : upd (stages q) t k = stages q) by (apply upd_same; exact Hk).
  destruct k; cbn [own cstep] in E; rewrite Hk in E; cbn [queue_step] in E; try discriminate.
  - destruct (hstep (handler q) (Call t Increment)) as [h|]; [|discriminate]. injection E as <-. exists SIncrement. repeat split.
  - destruct (hstep (handler q) (Run t pick)) as [h|]; [|discriminate]. destruct (nth_error (threads h) t) as [p|].
    + destruct p; injection E as <-; try (exists SIncrement; unfold effect; cf; rewrite Same, app_nil_r; repeat split; left; reflexivity).
      exists SIdle. unfold effect. cbn [returned]. cf. rewrite app_nil_r. repeat split. right. reflexivity.
    + injection E as <-. exists SIncrement; unfold effect; cf; rewrite Same, app_nil_r; repeat split; left; reflexivity.
  - destruct (hstep (handler q) (Run t pick)) as [h|]; [|discriminate].
    assert (G : q' = set_handler h q -> exists k', effect q q' t SWait k').
    { intros ->. exists SWait. unfold effect. cf. rewrite Same, app_nil_r. repeat split. left. split; [left|]; reflexivity. }
    destruct (nth_error (threads h) t) as [p|]; [|injection E as E; apply G; symmetry; exact E].
    destruct p; try (injection E as E; apply G; symmetry; exact E). injection E as E. cbn [returned log handler set_handler] in E.
    destruct (log h) as [|[u w r|u w|u w] l]; try (apply G; symmetry; exact E). subst q'. destruct r.
    + exists SIdle. unfold effect. cf. rewrite app_nil_r. repeat split. right. split; [reflexivity|]. exists Disabled. split; [discriminate|reflexivity].
    + exists SIdle. unfold effect. cf. rewrite app_nil_r. repeat split. right. split; [reflexivity|]. exists Timeout. split; [discriminate|reflexivity].
    + exists SPop. unfold effect. cf. rewrite app_nil_r. repeat split. left. split; [right; reflexivity|reflexivity].
  - destruct (hstep (handler q) (Run t pick)) as [h|]; [|discriminate]. destruct (nth_error (threads h) t) as [p|].
    + destruct p; injection E as <-; try (exists SOther; unfold effect; cf; rewrite Same, app_nil_r; repeat split; left; reflexivity).
      exists SIdle. unfold effect. cbn [returned]. cf. rewrite app_nil_r. repeat split. right. reflexivity.
    + injection E as <-. exists SOther; unfold effect; cf; rewrite Same, app_nil_r; repeat split; left; reflexivity.
  - destruct (free (pop_mutex q)); [|discriminate]. injection E as <-. exists SEmpty. unfold effect. cf. rewrite app_nil_r. repeat split. left. split; reflexivity.
  - injection E as <-. eexists. unfold effect. cf. rewrite app_nil_r. split; [reflexivity|]. split; [reflexivity|]. left. destruct (foreground q); split; reflexivity.
  - injection E as <-. eexists. unfold effect. cf. rewrite app_nil_r. split; [reflexivity|]. split; [reflexivity|]. left. split; reflexivity.
  - destruct (foreground q); injection E as <-; eexists; unfold effect; cf; rewrite app_nil_r; (split; [reflexivity|]; split; [reflexivity|]).
    + right. split; [reflexivity|]. eexists. split; [|reflexivity]. discriminate.
    + left. split; reflexivity.
  - destruct (foreground q); injection E as <-; eexists; unfold effect; cf; rewrite app_nil_r; (split; [reflexivity|]; split; [reflexivity|]).
    + right. split; [reflexivity|]. eexists. split; [|reflexivity]. discriminate.
    + left. split; reflexivity.
  - destruct (foreground q); injection E as <-; eexists; unfold effect; cf; rewrite app_nil_r; (split; [reflexivity|]; split; [reflexivity|]).
    + right. split; [reflexivity|]. eexists. split; [|reflexivity]. discriminate.
    + right. split; [reflexivity|]. eexists. split; [|reflexivity]. discriminate.
Qed.

Lemma call_effect (q q' : cstate nat) t c : cstep q (CCall t c) = Some q' ->
  nth_error (stages q) t = Some SIdle /\ stages q' = upd (stages q) t (fst (begin c)) /\ produced q' = produced q /\ results q' = results q.
Proof.
  intros E. cbn [cstep] in E. destruct (nth_error (stages q) t) as [k|]; [|discriminate]. destruct k; try discriminate. split; [reflexivity|].
  destruct (begin c) as [g o]. cbn [fst]. destruct o as [o|].
  - destruct (hstep (handler q) (Call t o)) as [h|]; [|discriminate]. injection E as <-. repeat split.
  - injection E as <-. repeat split.
Qed.

Lemma quiet_effect (q q' : cstate nat) l : match l with CSpurious _ | CExpire _ | CTick => True | _ => False end -> cstep q l = Some q' ->
  stages q' = stages q /\ produced q' = produced q /\ results q' = results q.
Proof.
  intros Hl E.
  assert (G : forall o : option (state N), option_map (fun h => set_handler h q) o = Some q' -> stages q' = stages q /\ produced q' = produced q /\ results q' = results q).
  { intros [h|] X; [|discriminate]. injection X as <-. repeat split. }
  destruct l; try contradiction; exact (G _ E).
Qed.

(** ** The invariant of every execution *)
Definition ptie (g : pstage) (k : stage nat) : Prop :=
  match g with
  | PProduce id => k = SPush id \/ k = SIncrement
  | PQueueOff | PWaitTasks => k = SOther
  | PConsume => k = SWait \/ qpop k = true
  | _ => k = SIdle
  end.

Definition holds (id : nat) (g : pstage) : bool := match g with PTask i => i =? id | _ => false end.

Record PInv n m (s : pstate) : Prop := {
  pi_queue : creachable (cinit 0%N true (n + m)) (queue s);
  pi_length : length (pstages s) = length (stages (queue s));
  pi_tie : forall t g k, nth_error (pstages s) t = Some g -> nth_error (stages (queue s)) t = Some k -> ptie g k;
  pi_emitted : forall id, In id (emitted s) -> In id (slots s);
  pi_pending : forall t id, nth_error (pstages s) t = Some (PProduce id) -> In id (slots s);
  pi_count : forall id, times id (taken s) = times id (started s) + count (holds id) (pstages s);
  pi_abort : forall t id, ~ In (EvAbort t id) (events s) }.

Lemma started_cons e s : started (say e s) = started s ++ match e with EvStart _ id => [id] | _ => [] end.
Proof. unfold started, say. cbn [events rev]. rewrite flat_map_app. cbn [flat_map]. rewrite app_nil_r. reflexivity. Qed.

Lemma started_same s s' : events s' = events s -> started s' = started s.
Proof. intros H. unfold started. rewrite H. reflexivity. Qed.
Lemma started_one s s' e : events s' = e :: events s -> started s' = started s ++ match e with EvStart _ id => [id] | _ => [] end.
Proof. intros H. unfold started. rewrite H. cbn [rev]. rewrite flat_map_app. cbn [flat_map]. rewrite app_nil_r. reflexivity. Qed.

Ltac st s := match goal with |- context [started (Build_pstate ?a ?b ?c ?d ?e ?f ?g)] =>
  first [rewrite (started_same s (Build_pstate a b c d e f g) eq_refl)|rewrite (started_one s (Build_pstate a b c d e f g) _ eq_refl), ?app_nil_r] end.

Lemma times_app id l l' : times id (l ++ l') = times id l + times id l'.
Proof. unfold times. apply count_occ_app. Qed.

Lemma count_repeat' {A} (f : A -> bool) x n : f x = false -> count f (repeat x n) = 0.
Proof. intros H. apply count_zero. intros t p Hp. apply Wait_proofs.nth_repeat in Hp as ->. exact H. Qed.

Lemma count_app {A} (f : A -> bool) l l' : count f (l ++ l') = count f l + count f l'.
Proof. unfold count. rewrite filter_app, app_length. reflexivity. Qed.

Lemma init_stage n m t g : nth_error (pstages (pinit n m)) t = Some g -> g = PIdle \/ g = PUnborn.
Proof.
  cbn. intros H. destruct (Nat.lt_ge_cases t n) as [L|L].
  - rewrite nth_error_app1 in H by (rewrite repeat_length; exact L). apply Wait_proofs.nth_repeat in H. left. exact H.
  - rewrite nth_error_app2 in H by (rewrite repeat_length; exact L). apply Wait_proofs.nth_repeat in H. right. exact H.
Qed.

Lemma init_pinv n m : PInv n m (pinit n m).
Proof.
  constructor; cbn [queue pinit emitted taken slots events started].
  - constructor.
  - cbn [pstages pinit stages cinit]. rewrite app_length, !repeat_length. reflexivity.
  - intros t g k Hg Hk. apply Wait_proofs.nth_repeat in Hk as ->. destruct (init_stage _ _ _ _ Hg) as [->| ->]; reflexivity.
  - intros id [].
  - intros t id Hg. destruct (init_stage _ _ _ _ Hg); discriminate.
  - intros id. cbn [pstages pinit]. rewrite count_app, !count_repeat' by reflexivity. reflexivity.
  - intros t id [].
Qed.

(** only the stage of [t] and parts that the invariant does not see change *)
Lemma pinv_stage n m s t g g' slots' mutex' en' threads' evs : PInv n m s -> nth_error (pstages s) t = Some g ->
  (forall k, ptie g k -> ptie g' k) -> (forall id, In id (slots s) -> In id slots') ->
  (forall id, g' = PProduce id -> In id slots') ->
  (forall t id, ~ In (EvAbort t id) evs) ->
  let s' := {| queue := queue s; slots := slots'; slots_mutex := mutex'; pool_enabled := en'; pool_threads := threads'; pstages := upd (pstages s) t g'; events := evs |} in
  (forall id, times id (started s') + b2n (holds id g') = times id (started s) + b2n (holds id g)) ->
  PInv n m s'.
Proof.
  intros [P1 P2 P3 P4 P5 P6 P7] Hg Ht Hs Hp Ha s' Hc.
  constructor; unfold emitted, taken in *; subst s'; cbn [queue slots pstages events] in *.
  - exact P1.
  - rewrite upd_length. exact P2.
  - intros u g0 k Hu Hk. revert u g0 Hu k Hk. apply (stage_all (fun u g0 => forall k, nth_error (stages (queue s)) u = Some k -> ptie g0 k)).
    + intros u g0 N Hu k Hk. exact (P3 u g0 k Hu Hk).
    + intros k Hk. apply Ht. exact (P3 t g k Hg Hk).
  - intros id Hid. apply Hs, P4, Hid.
  - intros u id Hu. revert u id Hu.
    assert (G : forall u g0, nth_error (upd (pstages s) t g') u = Some g0 -> forall id, g0 = PProduce id -> In id slots').
    { apply (stage_all (fun _ g0 => forall id, g0 = PProduce id -> In id slots')); [|exact Hp]. intros u g0 N Hu id ->. apply Hs, (P5 u id Hu). }
    intros u id Hu. exact (G u _ Hu id eq_refl).
  - intros id. pose proof (count_upd (holds id) (pstages s) t g' g Hg). specialize (Hc id). specialize (P6 id). lia.
  - exact Ha.
Qed.

Lemma no_abort s e : (forall t id, ~ In (EvAbort t id) (events s)) -> (forall t id, e <> EvAbort t id) -> forall t id, ~ In (EvAbort t id) (e :: events s).
Proof. intros H He t id [E|E]; [exact (He t id E)|exact (H t id E)]. Qed.

(** the queue has moved on, thread [t] is now at [k'] in it and at [g'] outside *)
Lemma pinv_queue n m s q t k' g g' mutex' en' evs l : PInv n m s -> nth_error (pstages s) t = Some g ->
  cstep (queue s) l = Some q -> stages q = upd (stages (queue s)) t k' -> ptie g' k' ->
  (forall id, In id (produced q) -> In id (slots s)) -> (forall id, g' = PProduce id -> In id (slots s)) ->
  (forall t id, ~ In (EvAbort t id) evs) ->
  let s' := {| queue := q; slots := slots s; slots_mutex := mutex'; pool_enabled := en'; pool_threads := pool_threads s; pstages := upd (pstages s) t g'; events := evs |} in
  (forall id, times id (consumed q) + times id (started s) + b2n (holds id g) = times id (consumed (queue s)) + times id (started s') + b2n (holds id g')) ->
  PInv n m s'.
Proof.
  intros [P1 P2 P3 P4 P5 P6 P7] Hg E Hst Ht Hp Hpp Ha s' Hc.
  constructor; unfold emitted, taken in *; subst s'; cbn [queue slots pstages events] in *.
  - econstructor; [exact P1|exact E].
  - rewrite Hst, !upd_length. exact P2.
  - intros u g0 k Hu Hk. revert u g0 Hu k Hk. apply (stage_all (fun u g0 => forall k, nth_error (stages q) u = Some k -> ptie g0 k)).
    + intros u g0 N Hu k Hk. rewrite Hst, nth_upd_other in Hk by congruence. exact (P3 u g0 k Hu Hk).
    + intros k Hk. rewrite Hst in Hk. assert (Hl : t < length (stages (queue s))) by (rewrite <- P2; apply nth_error_Some; congruence). apply nth_error_Some in Hl.
      destruct (nth_error (stages (queue s)) t) as [k0|] eqn:Hk0; [|contradiction]. rewrite (nth_upd_same _ _ _ _ Hk0) in Hk. injection Hk as <-. exact Ht.
  - exact Hp.
  - intros u id Hu.
    assert (G : forall u g0, nth_error (upd (pstages s) t g') u = Some g0 -> forall id, g0 = PProduce id -> In id (slots s)).
    { apply (stage_all (fun _ g0 => forall id, g0 = PProduce id -> In id (slots s))); [|exact Hpp]. intros v g0 N Hv i ->. apply (P5 v i Hv). }
    exact (G u _ Hu id eq_refl).
  - intros id. pose proof (count_upd (holds id) (pstages s) t g' g Hg). specialize (Hc id). specialize (P6 id). lia.
  - exact Ha.
Qed.

Lemma registered_In id s : registered id s = true <-> In id (slots s).
Proof.
  unfold registered. rewrite existsb_exists. split.
  - intros (x & H & E). apply Nat.eqb_eq in E. subst. exact H.
  - intros H. exists id. split; [exact H|apply Nat.eqb_refl].
Qed.

Lemma consumed_cons (q q' : cstate nat) r : results q' = r :: results q -> consumed q' = consumed q ++ match r with RValue _ x => [x] | _ => [] end.
Proof. intros H. unfold consumed. rewrite H. apply values_cons. Qed.
Lemma consumed_same (q q' : cstate nat) : results q' = results q -> consumed q' = consumed q.
Proof. intros H. unfold consumed. rewrite H. reflexivity. Qed.

Lemma holds_slot n m s t id : PInv n m s -> nth_error (pstages s) t = Some (PTask id) -> In id (slots s).
Proof.
  intros P Hg. apply (pi_emitted _ _ _ P). pose proof (pi_count _ _ _ P id) as C.
  assert (H : 0 < count (holds id) (pstages s)).
  { unfold count. assert (X : In (PTask id) (filter (holds id) (pstages s))) by (apply filter_In; split; [eapply nth_error_In; exact Hg|cbn; apply Nat.eqb_refl]).
    destruct (filter (holds id) (pstages s)); [contradiction|cbn; lia]. }
  assert (T : In id (taken s)) by (apply (count_occ_In Nat.eq_dec); unfold times in C; lia).
  unfold emitted. rewrite (order_lemma _ _ _ _ _ (pi_queue _ _ _ P)). apply in_or_app. left. exact T.
Qed.

Ltac pf := cbn [queue slots slots_mutex pool_enabled pool_threads pstages events set_queue set_slots set_slots_mutex set_pool_enabled set_pool_threads set_pstage say].

Lemma queue_call_pinv n m s t c g g' mutex' en' : PInv n m s -> nth_error (pstages s) t = Some g -> (forall id, holds id g = false) ->
  (forall id, holds id g' = false) -> ptie g' (fst (begin c)) -> (forall id, g' = PProduce id -> In id (slots s)) ->
  forall s', queue_call t c g' (set_slots_mutex mutex' (set_pool_enabled en' s)) = Some s' -> PInv n m s'.
Proof.
  intros P Hg H1 H2 Ht Hp s' E. unfold queue_call in E. cbn [queue set_slots_mutex set_pool_enabled] in E.
  destruct (cstep (queue s) (CCall t c)) as [q|] eqn:Eq; [|discriminate]. injection E as <-.
  destruct (call_effect _ _ _ _ Eq) as (Hi & Hst & Hpr & Hr).
  eapply (pinv_queue n m s q t (fst (begin c)) g g'); [exact P|exact Hg|exact Eq|exact Hst|exact Ht|rewrite Hpr; exact (pi_emitted _ _ _ P)|exact Hp|exact (pi_abort _ _ _ P)|].
  intros id. rewrite H1, H2, (consumed_same _ _ Hr). reflexivity.
Qed.

Lemma in_queue_pinv n m s t pick g s' : PInv n m s -> nth_error (pstages s) t = Some g ->
  match g with PProduce _ | PQueueOff | PWaitTasks | PConsume => True | _ => False end ->
  in_queue_step t pick g s = Some s' -> PInv n m s'.
Proof.
  intros P Hg Hin E. unfold in_queue_step in E. destruct (nth_error (stages (queue s)) t) as [k|] eqn:Hk; [|discriminate].
  fold (own k t pick) in E. destruct (cstep (queue s) (own k t pick)) as [q|] eqn:Eq; [|discriminate].
  destruct (own_effect _ _ _ _ _ Hk Eq) as (k' & Hst & Hpr & Hkk).
  assert (Hk' : nth_error (stages q) t = Some k') by (rewrite Hst; eapply nth_upd_same; exact Hk). rewrite Hk' in E.
  pose proof (pi_tie _ _ _ P t g k Hg Hk) as Ht.
  assert (Hprod : forall id, In id (produced q) -> In id (slots s)).
  { intros id Hid. rewrite Hpr in Hid. apply in_app_or in Hid as [Hid|Hid]; [exact (pi_emitted _ _ _ P id Hid)|].
    destruct k; try contradiction. destruct Hid as [<-|[]]. destruct g; try contradiction; cbn in Ht; try discriminate.
    - destruct Ht as [Ht|Ht]; [|discriminate]. injection Ht as ->. exact (pi_pending _ _ _ P t _ Hg).
    - destruct Ht as [Ht|Ht]; discriminate. }
  assert (Stay : ptie g k' -> results q = results (queue s) -> PInv n m (set_queue q s)).
  { intros T R. assert (X : set_queue q s = {| queue := q; slots := slots s; slots_mutex := slots_mutex s; pool_enabled := pool_enabled s; pool_threads := pool_threads s; pstages := upd (pstages s) t g; events := events s |})
      by (rewrite upd_same by exact Hg; reflexivity). rewrite X.
    eapply (pinv_queue n m s q t k' g g); [exact P|exact Hg|exact Eq|exact Hst|exact T|exact Hprod| |exact (pi_abort _ _ _ P)|].
    - intros id ->. exact (pi_pending _ _ _ P t _ Hg).
    - intros id. rewrite (consumed_same _ _ R). reflexivity. }
  assert (Leave : forall g' mutex' evs, ptie g' k' -> (forall id, g' <> PProduce id) -> (forall t id, ~ In (EvAbort t id) evs) ->
    (forall id, times id (consumed q) + times id (started s) = times id (consumed (queue s)) + times id (started {| queue := q; slots := slots s; slots_mutex := mutex'; pool_enabled := pool_enabled s; pool_threads := pool_threads s; pstages := upd (pstages s) t g'; events := evs |}) + b2n (holds id g')) ->
    PInv n m {| queue := q; slots := slots s; slots_mutex := mutex'; pool_enabled := pool_enabled s; pool_threads := pool_threads s; pstages := upd (pstages s) t g'; events := evs |}).
  { intros g' mutex' evs T H1 H2 H3. eapply (pinv_queue n m s q t k' g g'); [exact P|exact Hg|exact Eq|exact Hst|exact T|exact Hprod| |exact H2|].
    - intros id X. destruct (H1 id X).
    - intros id. assert (holds id g = false) as -> by (destruct g; try contradiction; reflexivity). cbn [b2n]. rewrite Nat.add_0_r. exact (H3 id). }
  assert (Nab : forall e, (forall t id, e <> EvAbort t id) -> forall t id, ~ In (EvAbort t id) (e :: events s)) by (intros e He; apply no_abort; [exact (pi_abort _ _ _ P)|exact He]).
  assert (Quiet : forall e mutex' g', match e with EvStart _ _ => False | _ => True end -> (forall id, holds id g' = false) -> results q = results (queue s) -> forall id,
    times id (consumed q) + times id (started s) = times id (consumed (queue s)) + times id (started {| queue := q; slots := slots s; slots_mutex := mutex'; pool_enabled := pool_enabled s; pool_threads := pool_threads s; pstages := upd (pstages s) t g'; events := e :: events s |}) + b2n (holds id g')).
  { intros e mutex' g' He Hh R id. rewrite Hh, (consumed_same _ _ R). unfold started. cbn [events rev]. rewrite flat_map_app, times_app.
    assert (flat_map (fun e => match e with EvStart _ id => [id] | _ => [] end) [e] = []) as -> by (destruct e; try reflexivity; contradiction). cbn. lia. }
  destruct g; try contradiction; cbn [ptie] in Ht.
  - destruct Ht as [->| ->]; cbn in Hkk.
    + destruct Hkk as [-> R]. injection E as <-. apply Stay; [right; reflexivity|exact R].
    + destruct Hkk as [[->| ->] R].
      * injection E as <-. apply Stay; [right; reflexivity|exact R].
      * injection E as <-. cbn [queue_returned]. unfold say, set_pstage, set_slots_mutex, set_queue. pf.
        apply Leave; [reflexivity|discriminate|apply Nab; discriminate|apply Quiet; [exact I|reflexivity|exact R]].
  - subst k. destruct Hkk as [[->| ->] R].
    + injection E as <-. apply Stay; [reflexivity|exact R].
    + injection E as <-. cbn [queue_returned]. unfold set_pstage, set_queue. pf.
      apply Leave; [reflexivity|discriminate|exact (pi_abort _ _ _ P)|]. intros id. rewrite (consumed_same _ _ R). st s. cbn [holds b2n]. lia.
  - subst k. destruct Hkk as [[->| ->] R].
    + injection E as <-. apply Stay; [reflexivity|exact R].
    + injection E as <-. cbn [queue_returned queue set_queue].
      destruct (log (handler q)) as [|[u w r|u w|u w] l];
        try (unfold say, set_pstage, set_queue; pf; apply Leave; [reflexivity|discriminate|apply Nab; discriminate|apply Quiet; [exact I|reflexivity|exact R]]);
        (unfold set_pstage, set_queue; pf; apply Leave; [reflexivity|discriminate|exact (pi_abort _ _ _ P)|]; intros id; rewrite (consumed_same _ _ R); st s; cbn [holds b2n]; lia).
  - assert (D : (k' <> SIdle /\ ptie PConsume k' /\ results q = results (queue s)) \/
      (k' = SIdle /\ exists r, results q = r :: results (queue s))).
    { destruct Ht as [->|Ht]; [destruct Hkk as [([->| ->] & R)|(-> & r & _ & R)]|].
      - left. split; [discriminate|]. split; [left; reflexivity|exact R].
      - left. split; [discriminate|]. split; [right; reflexivity|exact R].
      - right. split; [reflexivity|]. eexists. exact R.
      - assert (X : (qpop k' = true /\ results q = results (queue s)) \/ (k' = SIdle /\ exists r, (forall u r', r <> RThrow u r') /\ results q = r :: results (queue s))) by (destruct k; try discriminate; exact Hkk).
        destruct X as [(Y & R)|(-> & r & _ & R)].
        + left. split; [intros ->; discriminate|]. split; [right; exact Y|exact R].
        + right. split; [reflexivity|]. eexists. exact R. }
    destruct D as [(N & T & R)|(-> & r & R)].
    + destruct k'; try (injection E as <-; apply Stay; [exact T|exact R]). contradiction.
    + injection E as <-. cbn [queue_returned queue set_queue]. rewrite R. pose proof (consumed_cons _ _ _ R) as Cq.
      destruct r as [u x|u r|u|u]; [|destruct r| |]; unfold say, set_pstage, set_queue; pf;
        (apply Leave; [reflexivity|discriminate|first [exact (pi_abort _ _ _ P)|apply Nab; discriminate]|]).
      * intros id. rewrite Cq, times_app. st s. unfold times at 2. cbn [holds count_occ].
        destruct (Nat.eq_dec x id) as [->|Ne]; [rewrite Nat.eqb_refl|apply Nat.eqb_neq in Ne; rewrite Ne]; cbn [b2n]; lia.
      * intros id. rewrite Cq, app_nil_r. st s. cbn [holds b2n]. lia.
      * intros id. rewrite Cq, app_nil_r. st s. cbn [holds b2n]. lia.
      * intros id. rewrite Cq, app_nil_r. st s. cbn [holds b2n]. lia.
      * intros id. rewrite Cq, app_nil_r. st s. cbn [holds b2n]. lia.
      * intros id. rewrite Cq, app_nil_r. st s. cbn [holds b2n]. lia.
Qed.

Lemma started_quiet e s s' : events s' = e :: events s -> match e with EvStart _ _ => False | _ => True end -> started s' = started s.
Proof. intros H He. rewrite (started_one _ _ _ H). destruct e; try contradiction; apply app_nil_r. Qed.

(** a step that only changes the stage of [t], without starting a task *)
Lemma pinv_move n m s t g g' slots' mutex' en' threads' : PInv n m s -> nth_error (pstages s) t = Some g ->
  (forall k, ptie g k -> ptie g' k) -> (forall id, In id (slots s) -> In id slots') -> (forall id, g' <> PProduce id) ->
  (forall id, holds id g' = holds id g) ->
  PInv n m {| queue := queue s; slots := slots'; slots_mutex := mutex'; pool_enabled := en'; pool_threads := threads'; pstages := upd (pstages s) t g'; events := events s |}.
Proof.
  intros P Hg Ht Hs Hp Hh. apply pinv_stage with (g := g); try assumption.
  - intros id X. destruct (Hp id X).
  - exact (pi_abort _ _ _ P).
  - intros id. st s. rewrite Hh. reflexivity.
Qed.

Lemma pinv_say n m s e : PInv n m s -> match e with EvStart _ _ | EvAbort _ _ => False | _ => True end -> PInv n m (say e s).
Proof.
  intros [P1 P2 P3 P4 P5 P6 P7] He. constructor; try assumption.
  - intros id. rewrite (started_quiet e s (say e s)); [exact (P6 id)|reflexivity|destruct e; try exact I; contradiction].
  - unfold say. cbn [events]. apply no_abort; [exact P7|]. intros t id ->. contradiction.
Qed.

Lemma prun_pinv n m s t pick g s' : PInv n m s -> nth_error (pstages s) t = Some g -> prun t pick g s = Some s' -> PInv n m s'.
Proof.
  intros P Hg E.
  destruct g as [| |id|id|id| |k| | |us| | | |id|id|]; cbn [prun] in E; try discriminate.
  - destruct (free (slots_mutex s)); [|discriminate]. destruct (registered id s) eqn:Hr.
    + eapply (queue_call_pinv n m s t (Produce id) _ (PProduce id) (Some t) (pool_enabled s)); [exact P|exact Hg|reflexivity|reflexivity| | |exact E].
      * left. reflexivity.
      * intros i X. injection X as <-. apply registered_In. exact Hr.
    + injection E as <-. apply pinv_say; [|exact I]. eapply pinv_move; [exact P|exact Hg|trivial|trivial|discriminate|reflexivity].
  - eapply in_queue_pinv; [exact P|exact Hg|exact I|exact E].
  - destruct (free (slots_mutex s)); [|discriminate]. destruct (registered id s); injection E as <-; (apply pinv_say; [|exact I]).
    + eapply pinv_move; [exact P|exact Hg|trivial|trivial|discriminate|reflexivity].
    + unfold set_pstage, set_slots. pf. eapply pinv_move; [exact P|exact Hg|trivial|intros i Hi; right; exact Hi|discriminate|reflexivity].
  - destruct (pool_enabled s); injection E as <-.
    + apply pinv_say; [|exact I]. eapply pinv_move; [exact P|exact Hg|trivial|trivial|discriminate|reflexivity].
    + unfold set_pstage, set_pool_enabled; pf; eapply pinv_move; [exact P|exact Hg|trivial|trivial|discriminate|reflexivity].
  - destruct k as [|k].
    + injection E as <-. apply pinv_say; [|exact I]. eapply pinv_move; [exact P|exact Hg|trivial|trivial|discriminate|reflexivity].
    + destruct (nth_error (pstages s) pick) as [g|] eqn:Hq; [|discriminate]. destruct g; try discriminate. injection E as <-.
      assert (Ne : pick <> t) by congruence.
      assert (P' : PInv n m (set_pstage pick PLoop (set_pool_threads (pool_threads s ++ [pick]) s)))
        by (unfold set_pstage, set_pool_threads; pf; eapply pinv_move; [exact P|exact Hq|trivial|trivial|discriminate|reflexivity]).
      apply (pinv_move n m _ t (PSpawn (S k)) (PSpawn k)); [exact P'| |trivial|trivial|discriminate|reflexivity]. cbn [pstages set_pstage set_pool_threads]. rewrite nth_upd_other by exact Ne. exact Hg.
  - destruct (pool_enabled s).
    + eapply (queue_call_pinv n m s t (Switch Kdisable) _ PQueueOff (slots_mutex s) false); [exact P|exact Hg|reflexivity|reflexivity|reflexivity|discriminate|exact E].
    + injection E as <-. apply pinv_say; [|exact I]. eapply pinv_move; [exact P|exact Hg|trivial|trivial|discriminate|reflexivity].
  - eapply in_queue_pinv; [exact P|exact Hg|exact I|exact E].
  - destruct us as [|u us].
    + injection E as <-. apply pinv_say; [|exact I]. unfold set_pstage, set_pool_threads; pf. eapply pinv_move; [exact P|exact Hg|trivial|trivial|discriminate|reflexivity].
    + destruct (nth_error (pstages s) u) as [g|]; [|discriminate]. destruct g; try discriminate. injection E as <-.
      eapply pinv_move; [exact P|exact Hg|trivial|trivial|discriminate|reflexivity].
  - eapply in_queue_pinv; [exact P|exact Hg|exact I|exact E].
  - eapply (queue_call_pinv n m s t (Consume 0) _ PConsume (slots_mutex s) (pool_enabled s)); [exact P|exact Hg|reflexivity|reflexivity|left; reflexivity|discriminate|].
    destruct s. exact E.
  - eapply in_queue_pinv; [exact P|exact Hg|exact I|exact E].
  - destruct (free (slots_mutex s)); [|discriminate]. pose proof (holds_slot _ _ _ _ _ P Hg) as Hs. apply registered_In in Hs. rewrite Hs in E. injection E as <-.
    unfold say, set_pstage. pf. eapply pinv_stage; [exact P|exact Hg|trivial|trivial|discriminate| |].
    + apply no_abort; [exact (pi_abort _ _ _ P)|discriminate].
    + intros i. st s. rewrite times_app. unfold times at 2. cbn [holds count_occ].
      destruct (Nat.eq_dec id i) as [->|Ne]; [rewrite Nat.eqb_refl|apply Nat.eqb_neq in Ne; rewrite Ne]; cbn [b2n]; lia.
  - injection E as <-. apply pinv_say; [|exact I]. eapply pinv_move; [exact P|exact Hg|trivial|trivial|discriminate|reflexivity].
Qed.

Lemma pinv_quiet n m s q l : PInv n m s -> match l with CSpurious _ | CExpire _ | CTick => True | _ => False end -> cstep (queue s) l = Some q -> PInv n m (set_queue q s).
Proof.
  intros [P1 P2 P3 P4 P5 P6 P7] Hl E. destruct (quiet_effect _ _ _ Hl E) as (H1 & H2 & H3).
  constructor; unfold emitted, taken in *; cbn [queue set_queue pstages slots events] in *; try assumption.
  - econstructor; [exact P1|exact E].
  - rewrite H1. exact P2.
  - rewrite H1. exact P3.
  - rewrite H2. exact P4.
  - intros id. rewrite (consumed_same _ _ H3). exact (P6 id).
Qed.

Lemma pstep_pinv n m s l s' : PInv n m s -> pstep s l = Some s' -> PInv n m s'.
Proof.
  intros P E. destruct l as [t c|t pick|t| |t|t d]; cbn [pstep] in E.
  - destruct (nth_error (pstages s) t) as [g|] eqn:Hg; [|discriminate]. destruct g; try discriminate. destruct c; cbn [pstart] in E;
      try (injection E as <-; eapply pinv_move; [exact P|exact Hg|trivial|trivial|discriminate|reflexivity]).
    eapply (queue_call_pinv n m s t (WaitAllConsumed timeout) _ PWaitTasks (slots_mutex s) (pool_enabled s)); [exact P|exact Hg|reflexivity|reflexivity|reflexivity|discriminate|].
    destruct s. exact E.
  - destruct (nth_error (pstages s) t) as [g|] eqn:Hg; [|discriminate]. eapply prun_pinv; eassumption.
  - destruct (cstep (queue s) (CSpurious t)) as [q|] eqn:Eq; [|discriminate]. injection E as <-. eapply pinv_quiet; [exact P| |exact Eq]. exact I.
  - destruct (cstep (queue s) CTick) as [q|] eqn:Eq; [|discriminate]. injection E as <-. eapply pinv_quiet; [exact P| |exact Eq]. exact I.
  - destruct (cstep (queue s) (CExpire t)) as [q|] eqn:Eq; [|discriminate]. injection E as <-. eapply pinv_quiet; [exact P| |exact Eq]. exact I.
  - destruct (nth_error (pstages s) t) as [g|] eqn:Hg; [|discriminate]. destruct g; try discriminate. injection E as <-. apply pinv_say; [|exact I]. eapply pinv_move; [exact P|exact Hg|trivial|trivial|discriminate|reflexivity].
Qed.

Lemma preachable_pinv allowed n m s : preachable allowed (pinit n m) s -> PInv n m s.
Proof. intros R. induction R as [|s l s' R IH A E]; [apply init_pinv|eapply pstep_pinv; eassumption]. Qed.

Lemma pool_once_lemma : forall n m s, preachable any_label (pinit n m) s ->
  forall id, times id (started s) <= times id (emitted s).
Proof.
  intros n m s R id. pose proof (preachable_pinv _ _ _ _ R) as P. pose proof (pi_count _ _ _ P id) as C.
  unfold emitted. rewrite (order_lemma _ _ _ _ _ (pi_queue _ _ _ P)), times_app. unfold taken in C. lia.
Qed.

Lemma pool_emitted_lemma : forall n m s, preachable any_label (pinit n m) s ->
  (forall id, In id (emitted s) -> In id (slots s)) /\ prefix (taken s) (emitted s) /\ (forall t id, ~ In (EvAbort t id) (events s)).
Proof.
  intros n m s R. pose proof (preachable_pinv _ _ _ _ R) as P. split; [exact (pi_emitted _ _ _ P)|]. split; [|exact (pi_abort _ _ _ P)].
  eexists. exact (order_lemma _ _ _ _ _ (pi_queue _ _ _ P)).
Qed.

(** ** The queue of a pool is never enabled again *)
Definition ctrl_ok (p : pc N) : Prop :=
  match p with
  | KLock k | DTest k | DStore k | DNotify k => k = Kdisable
  | STest | BLoop _ | BMutex _ | BNotify _ | ETest _ | EStore _ => False
  | _ => True
  end.
Definition limit_ok (p : pc N) : Prop := forall w, wait_of N p = Some w -> w_take w = true -> w_timeout w = 0.

Lemma woken_ctrl p q : woken N p q -> ctrl_ok p -> ctrl_ok q.
Proof. intros [->|(c & H & ->)]; [trivial|]. destruct p; try discriminate. cbn in *. rewrite H. trivial. Qed.

Lemma one_ctrl pick (s s' : state N) t p' : notify_one Main pick s = Some s' -> nth_error (threads s) t = Some p' -> ctrl_ok p' ->
  enabled s' = enabled s /\ forall p, nth_error (threads s') t = Some p -> ctrl_ok p.
Proof.
  intros E Hp H. apply notified_one in E as (l' & -> & (_ & _ & Hn & _) & _). split; [reflexivity|]. intros p Hp'.
  destruct (Hn t p Hp') as (p0 & H0 & W). rewrite Hp in H0. injection H0 as <-. exact (woken_ctrl _ _ W H).
Qed.

Lemma all_ctrl c (s : state N) t p' : nth_error (threads s) t = Some p' -> ctrl_ok p' -> forall p, nth_error (threads (notify_all c s)) t = Some p -> ctrl_ok p.
Proof.
  intros Hp H p Hp'. cbn in Hp'. rewrite nth_error_map, Hp in Hp'. injection Hp' as <-. exact (woken_ctrl _ _ (wake_woken _ c p') H).
Qed.

Ltac hf := cbn [value enabled waiting mutex status threads now log set_pc set_threads set_mutex set_status set_val set_enabled set_waiting set_now Wait_model.emit finish notify_all].

Lemma run_ctrl t p pick (s s' : state N) : run (c_above 0) (c_reached 0) c_incr c_decr t p pick s = Some s' -> nth_error (threads s) t = Some p -> ctrl_ok p ->
  (enabled s = false -> enabled s' = false) /\ forall p', nth_error (threads s') t = Some p' -> ctrl_ok p'.
Proof.
  intros E Hp H.
  assert (U : forall q, nth_error (upd (threads s) t q) t = Some q) by (intros q; eapply nth_upd_same; exact Hp).
  assert (G : forall s1 q, s' = s1 -> threads s1 = upd (threads s) t q -> ctrl_ok q -> (enabled s1 = enabled s \/ enabled s1 = false) ->
    (enabled s = false -> enabled s' = false) /\ forall p', nth_error (threads s') t = Some p' -> ctrl_ok p').
  { intros s1 q -> Ht Hq He. split; [intros X; destruct He as [He|He]; congruence|]. intros p' Hp'. rewrite Ht, U in Hp'. injection Hp' as <-. exact Hq. }
  destruct p; cbn [run] in E; try discriminate; cbn [ctrl_ok] in H; try contradiction; try subst k;
    repeat match goal with H0 : (if free ?m then _ else None) = Some _ |- _ => destruct (free m); [|discriminate] end;
    cbv zeta in E;
    try (injection E as E; symmetry in E; eapply (G _ _ E); [hf; reflexivity|exact I|left; reflexivity]).
  - destruct (negb (enabled s)); injection E as E; symmetry in E; (eapply (G _ _ E); [hf; reflexivity|exact I|left; reflexivity]).
  - destruct (condition w s); injection E as E; symmetry in E; (eapply (G _ _ E); [hf; reflexivity|exact I|left; reflexivity]).
  - injection E as E; symmetry in E; (eapply (G _ _ E); [hf; reflexivity|destruct timedout; exact I|left; reflexivity]).
  - destruct (if negb (enabled s) then Disabled else if finished then ConditionMet else Timeout);
      try (injection E as E; symmetry in E; (eapply (G _ _ E); [hf; reflexivity|exact I|left; reflexivity])).
    destruct (w_take w); [|injection E as E; symmetry in E; (eapply (G _ _ E); [hf; reflexivity|exact I|left; reflexivity])].
    unfold decrease in E. set (s1 := set_val _ _) in E. assert (H1 : nth_error (threads s1) t = Some (WRet w ConditionMet)) by apply U.
    destruct (c_above 0 (value s1)).
    + destruct (one_ctrl _ _ _ _ _ E H1 I) as [H2 H3]. split; [intros X; rewrite H2; exact X|exact H3].
    + destruct (c_reached 0 (value s1)); injection E as E; subst s'.
      * split; [trivial|]. intros p'. eapply all_ctrl; [exact H1|exact I].
      * split; [trivial|]. intros p' Hp'. rewrite H1 in Hp'. injection Hp' as <-. exact I.
  - injection E as E; symmetry in E; (eapply (G _ _ E); [hf; reflexivity|destruct notify; exact I|left; reflexivity]).
  - injection E as E. subst s'. split; [trivial|]. intros p'. eapply all_ctrl; [hf; apply U|exact I].
  - set (s1 := set_pc t Idle _) in E. assert (H1 : nth_error (threads s1) t = Some Idle) by apply U. destruct (c_above 0 (value s1)).
    + destruct (one_ctrl _ _ _ _ _ E H1 I) as [H2 H3]. split; [intros X; rewrite H2; exact X|exact H3].
    + injection E as E; subst s'. split; [trivial|]. intros p' Hp'. rewrite H1 in Hp'. injection Hp' as <-. exact I.
  - injection E as E; symmetry in E; (eapply (G _ _ E); [hf; reflexivity|reflexivity|left; reflexivity]).
  - destruct (enabled s) eqn:En; injection E as E; symmetry in E; (eapply (G _ _ E); [hf; reflexivity|first [reflexivity|exact I]|left; exact En]).
  - injection E as E; symmetry in E; (eapply (G _ _ E); [hf; reflexivity|reflexivity|right; reflexivity]).
  - injection E as E. subst s'. split; [trivial|]. intros p'. eapply all_ctrl; [hf; apply U|exact I].
Qed.

Definition pool_label (l : clabel nat) : Prop :=
  match l with
  | CCall _ (Produce _) | CCall _ (Consume 0) | CCall _ (WaitAllConsumed _) | CCall _ (Switch Kdisable) => True
  | CCall _ _ => False
  | _ => True
  end.

Lemma returned_queue t g s : queue (queue_returned t g s) = queue s.
Proof.
  destruct g; try reflexivity; cbn [queue_returned].
  - destruct (log (handler (queue s))) as [|[u w r|u w|u w] l]; reflexivity.
  - destruct (results (queue s)) as [|[u x|u r|u|u] l]; try reflexivity. destruct r; reflexivity.
Qed.

Lemma pstep_queue s l s' : pstep s l = Some s' -> queue s' = queue s \/ exists ql, pool_label ql /\ cstep (queue s) ql = Some (queue s').
Proof.
  assert (C : forall t c g s s', pool_label (CCall t c) -> queue_call t c g s = Some s' -> exists ql, pool_label ql /\ cstep (queue s) ql = Some (queue s')).
  { clear. intros t c g s s' H E. unfold queue_call in E. destruct (cstep (queue s) (CCall t c)) as [q|] eqn:Eq; [|discriminate]. injection E as <-. exists (CCall t c). split; [exact H|exact Eq]. }
  assert (Q : forall t pick g s s', in_queue_step t pick g s = Some s' -> exists ql, pool_label ql /\ cstep (queue s) ql = Some (queue s')).
  { clear. intros t pick g s s' E. unfold in_queue_step in E. destruct (nth_error (stages (queue s)) t) as [k|]; [|discriminate].
    exists (own k t pick). split; [destruct k; exact I|]. fold (own k t pick) in E. destruct (cstep (queue s) (own k t pick)) as [q|]; [|discriminate].
    destruct (nth_error (stages q) t) as [[]|]; injection E as <-; rewrite ?returned_queue; reflexivity. }
  intros E. destruct l as [t c|t pick|t| |t|t d]; cbn [pstep] in E.
  - destruct (nth_error (pstages s) t) as [g|]; [|discriminate]. destruct g; try discriminate. destruct c; cbn [pstart] in E; try (injection E as <-; left; reflexivity).
    right. exact (C t (WaitAllConsumed timeout) _ _ _ I E).
  - destruct (nth_error (pstages s) t) as [g|]; [|discriminate].
    destruct g as [| |id|id|id| |k| | |us| | | |id|id|]; cbn [prun] in E; try discriminate.
    + destruct (free (slots_mutex s)); [|discriminate]. destruct (registered id s).
      * right. exact (C _ (Produce id) _ (set_slots_mutex (Some t) s) _ I E).
      * injection E as <-. left. reflexivity.
    + right. exact (Q _ _ _ _ _ E).
    + destruct (free (slots_mutex s)); [|discriminate]. destruct (registered id s); injection E as <-; left; reflexivity.
    + destruct (pool_enabled s); injection E as <-; left; reflexivity.
    + destruct k as [|k]; [injection E as <-; left; reflexivity|]. destruct (nth_error (pstages s) pick) as [g|]; [|discriminate]. destruct g; try discriminate. injection E as <-. left. reflexivity.
    + destruct (pool_enabled s).
      * right. exact (C _ (Switch Kdisable) _ (set_pool_enabled false s) _ I E).
      * injection E as <-. left. reflexivity.
    + right. exact (Q _ _ _ _ _ E).
    + destruct us as [|u us]; [injection E as <-; left; reflexivity|]. destruct (nth_error (pstages s) u) as [g|]; [|discriminate]. destruct g; try discriminate. injection E as <-. left. reflexivity.
    + right. exact (Q _ _ _ _ _ E).
    + right. exact (C t (Consume 0) PConsume s s' I E).
    + right. exact (Q _ _ _ _ _ E).
    + destruct (free (slots_mutex s)); [|discriminate]. destruct (registered id s); injection E as <-; left; reflexivity.
    + injection E as <-. left. reflexivity.
  - right. exists (CSpurious t). split; [exact I|]. destruct (cstep (queue s) (CSpurious t)) as [q|]; [|discriminate]. injection E as <-. reflexivity.
  - right. exists CTick. split; [exact I|]. destruct (cstep (queue s) CTick) as [q|]; [|discriminate]. injection E as <-. reflexivity.
  - right. exists (CExpire t). split; [exact I|]. destruct (cstep (queue s) (CExpire t)) as [q|]; [|discriminate]. injection E as <-. reflexivity.
  - destruct (nth_error (pstages s) t) as [g|] eqn:Hg; [|discriminate]. destruct g; try discriminate. injection E as <-. left. reflexivity.
Qed.

Definition QI (h : state N) : Prop := forall t p, nth_error (threads h) t = Some p -> ctrl_ok p /\ limit_ok p.

Notation hreach v en n := (reachable (c_above 0) (c_reached 0) c_incr c_decr counter_client (init v en n)).

Lemma woken_limit p q : woken N p q -> limit_ok p -> limit_ok q.
Proof. intros W H w Hw. rewrite (woken_wait _ _ _ W) in Hw. exact (H w Hw). Qed.

Definition pool_op (l : label N) : Prop :=
  match l with
  | Call _ (WaitAndDecrement 0) | Call _ (WaitThreshold _) | Call _ Increment | Call _ (Control Kdisable) => True
  | Call _ _ => False
  | _ => True
  end.

Lemma hstep_qi v en n h l h' : hreach v en n h -> QI h -> pool_op l -> hstep h l = Some h' -> QI h' /\ (enabled h = false -> enabled h' = false).
Proof.
  intros R Q A E. destruct l as [t o|t pick|t|t|].
  - unfold hstep, c_step in E. cbn [step] in E. destruct (nth_error (threads h) t) as [p|]; [|discriminate]. destruct p; try discriminate. injection E as <-.
    split; [|trivial]. unfold QI. cbn [threads set_pc]. apply (stage_all (fun _ p => ctrl_ok p /\ limit_ok p)); [intros u p _ Hp; exact (Q u p Hp)|].
    destruct o as [p ms|ms|ms|x b|f| | |k]; try contradiction; cbn.
    + destruct ms; [|contradiction]. split; [exact I|]. intros w X _. injection X as <-. reflexivity.
    + split; [exact I|]. intros w X Y. injection X as <-. discriminate.
    + split; [exact I|]. intros w X. discriminate.
    + destruct k; try contradiction. split; [reflexivity|]. intros w X. discriminate.
  - destruct (hrun _ _ _ _ _ _ _ R E) as (_ & p & p' & Hp & (_ & _ & Hn & _) & Hp' & M). unfold hstep, c_step in E. cbn [step] in E. rewrite Hp in E.
    destruct (Q t p Hp) as [Q1 Q2]. destruct (run_ctrl _ _ _ _ _ E Hp Q1) as [E1 E2]. split; [|exact E1]. intros u q Hq.
    destruct (Nat.eq_dec u t) as [->|Ne].
    + split; [exact (E2 q Hq)|]. rewrite Hp' in Hq. injection Hq as <-. destruct M as ([M| ->] & _); [intros w Hw; rewrite M in Hw; exact (Q2 w Hw)|discriminate].
    + destruct (Hn u q Hq) as (q0 & H0 & W). rewrite nth_upd_other in H0 by congruence. destruct (Q u q0 H0) as [A1 A2].
      split; [exact (woken_ctrl _ _ W A1)|exact (woken_limit _ _ W A2)].
  - unfold hstep, c_step in E. cbn [step] in E. destruct (nth_error (threads h) t) as [p|] eqn:Hp; [|discriminate]. destruct p; try discriminate. injection E as <-.
    split; [|trivial]. unfold QI. cbn [threads set_pc]. apply (stage_all (fun _ p => ctrl_ok p /\ limit_ok p)); [intros u p _ Hu; exact (Q u p Hu)|]. exact (Q t _ Hp).
  - unfold hstep, c_step in E. cbn [step] in E. destruct (nth_error (threads h) t) as [p|] eqn:Hp; [|discriminate]. destruct p; try discriminate. destruct dl as [d|]; [|discriminate].
    destruct (d <=? now h); [|discriminate]. injection E as <-.
    split; [|trivial]. unfold QI. cbn [threads set_pc]. apply (stage_all (fun _ p => ctrl_ok p /\ limit_ok p)); [intros u p _ Hu; exact (Q u p Hu)|]. exact (Q t _ Hp).
  - injection E as <-. split; [exact Q|trivial].
Qed.

Lemma cstep_handler (q q' : cstate nat) l : pool_label l -> cstep q l = Some q' -> handler q' = handler q \/ exists hl, pool_op hl /\ hstep (handler q) hl = Some (handler q').
Proof.
  intros A E. destruct l as [t c|t|t pick|t|t|].
  - cbn [cstep] in E. destruct (nth_error (stages q) t) as [k|]; [|discriminate]. destruct k; try discriminate.
    destruct c as [x|ms|ms| |k]; try contradiction; cbn [begin] in E.
    + injection E as <-. left. reflexivity.
    + destruct ms; [|contradiction]. destruct (hstep (handler q) (Call t (WaitAndDecrement 0))) as [h|] eqn:Eh; [|discriminate]. injection E as <-. right. eexists. split; [|exact Eh]. exact I.
    + destruct (hstep (handler q) (Call t (WaitThreshold ms))) as [h|] eqn:Eh; [|discriminate]. injection E as <-. right. eexists. split; [|exact Eh]. exact I.
    + destruct k; try contradiction. destruct (hstep (handler q) (Call t (Control Kdisable))) as [h|] eqn:Eh; [|discriminate]. injection E as <-. right. eexists. split; [|exact Eh]. exact I.
  - cbn [cstep] in E. destruct (nth_error (stages q) t) as [k|]; [|discriminate]. destruct k; cbn [queue_step] in E; try discriminate.
    + destruct (hstep (handler q) (Call t Increment)) as [h|] eqn:Eh; [|discriminate]. injection E as <-. right. eexists. split; [|exact Eh]. exact I.
    + destruct (free (pop_mutex q)); [|discriminate]. injection E as <-. left. reflexivity.
    + injection E as <-. left. reflexivity.
    + injection E as <-. left. reflexivity.
    + destruct (foreground q); injection E as <-; left; reflexivity.
    + destruct (foreground q); injection E as <-; left; reflexivity.
    + destruct (foreground q); injection E as <-; left; reflexivity.
  - cbn [cstep] in E. destruct (nth_error (stages q) t) as [k|]; [|discriminate]. destruct (hstep (handler q) (Run t pick)) as [h|] eqn:Eh; [|discriminate]. right. exists (Run t pick).
    split; [exact I|]. rewrite Eh. destruct (nth_error (threads h) t) as [[]|]; injection E as <-; try reflexivity. unfold returned. cf.
    destruct k; try reflexivity. destruct (log h) as [|[u w r|u w|u w] ls]; try reflexivity. destruct r; reflexivity.
  - right. exists (Spurious t). split; [exact I|]. cbn [cstep] in E. destruct (hstep (handler q) (Spurious t)); [|discriminate]. injection E as <-. reflexivity.
  - right. exists (Expire t). split; [exact I|]. cbn [cstep] in E. destruct (hstep (handler q) (Expire t)); [|discriminate]. injection E as <-. reflexivity.
  - right. exists Tick. split; [exact I|]. cbn [cstep] in E. destruct (hstep (handler q) Tick); [|discriminate]. injection E as <-. reflexivity.
Qed.

Lemma pstep_qi n m s l s' : PInv n m s -> QI (handler (queue s)) -> pstep s l = Some s' ->
  QI (handler (queue s')) /\ (queue_off s -> queue_off s').
Proof.
  intros P Q E. unfold queue_off. destruct (pstep_queue _ _ _ E) as [->|(ql & A & Eq)]; [split; [exact Q|trivial]|].
  destruct (cstep_handler _ _ _ A Eq) as [->|(hl & B & Eh)]; [split; [exact Q|trivial]|].
  eapply hstep_qi; [|exact Q|exact B|exact Eh]. exact (ci_handler _ _ _ _ _ (creachable_cinv _ _ _ _ _ (pi_queue _ _ _ P))).
Qed.

Lemma init_qi v en n : QI (init v en n).
Proof. intros t p Hp. apply Wait_proofs.nth_repeat in Hp as ->. split; [exact I|discriminate]. Qed.

Lemma preachable_qi allowed n m s : preachable allowed (pinit n m) s -> PInv n m s /\ QI (handler (queue s)).
Proof.
  intros R. induction R as [|s l s' R [P Q] A E]; [split; [apply init_pinv|apply init_qi]|].
  split; [eapply pstep_pinv; eassumption|eapply pstep_qi; eassumption].
Qed.

(** ** A disabled pool never starts a task again *)
Definition no_pop (q : cstate nat) : Prop := forall t k, nth_error (stages q) t = Some k -> qpop k = false.

Lemma no_grant (q q' : cstate nat) v en n t pick : CInv nat v en n q -> enabled (handler q) = false -> nth_error (stages q) t = Some SWait ->
  cstep q (CRun t pick) = Some q' -> nth_error (stages q') t <> Some SPop.
Proof.
  intros C En Hk E Hk'. cbn [cstep] in E. rewrite Hk in E. destruct (hstep (handler q) (Run t pick)) as [h|] eqn:Eh; [|discriminate].
  destruct (hrun _ _ _ _ _ _ _ (ci_handler _ _ _ _ _ C) Eh) as (R & p & p' & Hp & Hn & Hp' & M1 & M2 & M3 & M4). rewrite Hp' in E.
  assert (N : q' <> set_handler h q) by (intros ->; cbn [stages set_handler] in Hk'; congruence).
  destruct p'; try (injection E as E; destruct (N (eq_sym E))). injection E as <-. cbn [returned log handler set_handler] in Hk'.
  destruct (ci_tie _ _ _ _ _ C t _ p Hk Hp) as (w & Hw & _). destruct (M3 eq_refl) as [X|(w' & r & ->)]; [congruence|]. destruct M4 as (_ & _ & Hlog). rewrite Hlog in Hk'.
  destruct r; cbn [stages report set_stage set_handler] in Hk'; rewrite ?(nth_upd_same _ _ _ _ Hk) in Hk'; try discriminate.
  destruct (inv_ok _ _ _ (reachable_inv _ _ _ _ _ _ _ _ _ _ (ci_handler _ _ _ _ _ C)) t _ Hp) as (_ & _ & Hl & _). congruence.
Qed.

Lemma cstep_dead v en n (q q' : cstate nat) l : CInv nat v en n q -> enabled (handler q) = false -> no_pop q -> cstep q l = Some q' ->
  no_pop q' /\ consumed q' = consumed q.
Proof.
  intros C En Np E.
  assert (Own : forall t pick k, nth_error (stages q) t = Some k -> cstep q (own k t pick) = Some q' -> no_pop q' /\ consumed q' = consumed q).
  { clear E. intros t pick k Hk E. destruct (own_effect _ _ _ _ _ Hk E) as (k' & Hst & _ & Hkk). pose proof (Np t k Hk) as Hnk.
    assert (Hk' : nth_error (stages q') t = Some k') by (rewrite Hst; eapply nth_upd_same; exact Hk).
    assert (X : qpop k' = false -> no_pop q') by (intros X; unfold no_pop; rewrite Hst; apply (stage_all (fun _ k => qpop k = false)); [intros u k0 _ Hu; exact (Np u k0 Hu)|exact X]).
    destruct k; try discriminate; try contradiction.
    - destruct Hkk as [-> R]. split; [apply X; reflexivity|exact (consumed_same _ _ R)].
    - destruct Hkk as [[->| ->] R]; (split; [apply X; reflexivity|exact (consumed_same _ _ R)]).
    - destruct Hkk as [([->| ->] & R)|(-> & r & _ & R)].
      + split; [apply X; reflexivity|exact (consumed_same _ _ R)].
      + destruct (no_grant _ _ _ _ _ _ _ C En Hk E Hk').
      + split; [apply X; reflexivity|]. rewrite (consumed_cons _ _ _ R). apply app_nil_r.
    - destruct Hkk as [[->| ->] R]; (split; [apply X; reflexivity|exact (consumed_same _ _ R)]). }
  destruct l as [t c|t|t pick|t|t|].
  - destruct (call_effect _ _ _ _ E) as (_ & Hst & _ & R). split; [|exact (consumed_same _ _ R)].
    unfold no_pop. rewrite Hst. apply (stage_all (fun _ k => qpop k = false)); [intros u k0 _ Hu; exact (Np u k0 Hu)|]. destruct c; reflexivity.
  - pose proof E as E0. cbn [cstep] in E0. destruct (nth_error (stages q) t) as [k|] eqn:Hk; [|discriminate].
    apply (Own t 0 k Hk). destruct k; try discriminate; exact E.
  - destruct (run_shape _ _ _ _ _ _ _ _ C E) as (k & p & p' & h & r & Hk & _ & _ & _ & _ & _ & Hin & _).
    apply (Own t pick k Hk). destruct k; try discriminate; exact E.
  - destruct (quiet_effect _ _ (CSpurious t) I E) as (H1 & _ & R). split; [unfold no_pop; rewrite H1; exact Np|exact (consumed_same _ _ R)].
  - destruct (quiet_effect _ _ (CExpire t) I E) as (H1 & _ & R). split; [unfold no_pop; rewrite H1; exact Np|exact (consumed_same _ _ R)].
  - destruct (quiet_effect _ _ CTick I E) as (H1 & _ & R). split; [unfold no_pop; rewrite H1; exact Np|exact (consumed_same _ _ R)].
Qed.

(** where the events come from *)
Definition source s s' (e : pevent) : Prop :=
  match e with
  | EvUncaught t => exists pick, nth_error (pstages s) t = Some PConsume /\ in_queue_step t pick PConsume s = Some s'
  | EvWaited t r => exists pick, nth_error (pstages s) t = Some PWaitTasks /\ in_queue_step t pick PWaitTasks s = Some s'
  | EvStart _ _ => queue s' = queue s
  | _ => True
  end.

Lemma returned_events t g s : exists l, events (queue_returned t g s) = l ++ events s /\
  forall e, In e l -> match e with EvUncaught u => u = t /\ g = PConsume | EvWaited u _ => u = t /\ g = PWaitTasks | EvStart _ _ => False | _ => True end.
Proof.
  assert (Z : forall s', events s' = events s -> exists l, events s' = l ++ events s /\
    forall e, In e l -> match e with EvUncaught u => u = t /\ g = PConsume | EvWaited u _ => u = t /\ g = PWaitTasks | EvStart _ _ => False | _ => True end)
    by (intros s' ->; exists []; split; [reflexivity|intros e []]).
  assert (O : forall e s', events s' = e :: events s -> match e with EvUncaught u => u = t /\ g = PConsume | EvWaited u _ => u = t /\ g = PWaitTasks | EvStart _ _ => False | _ => True end ->
    exists l, events s' = l ++ events s /\
    forall e, In e l -> match e with EvUncaught u => u = t /\ g = PConsume | EvWaited u _ => u = t /\ g = PWaitTasks | EvStart _ _ => False | _ => True end)
    by (intros e s' -> He; exists [e]; split; [reflexivity|intros e' [<-|[]]; exact He]).
  destruct g; try (apply Z; reflexivity); cbn [queue_returned].
  - eapply O; [reflexivity|exact I].
  - destruct (log (handler (queue s))) as [|[u w r|u w|u w] l]; first [apply Z; reflexivity|eapply O; [reflexivity|split; reflexivity]].
  - destruct (results (queue s)) as [|[u x|u r|u|u] l]; try destruct r; first [apply Z; reflexivity|eapply O; [reflexivity|split; reflexivity]].
Qed.

Lemma pstep_events s l s' : pstep s l = Some s' -> exists evs, events s' = evs ++ events s /\ forall e, In e evs -> source s s' e.
Proof.
  assert (Z : forall s', events s' = events s -> exists l, events s' = l ++ events s /\ forall e, In e l -> source s s' e) by (intros s1 ->; exists []; split; [reflexivity|intros e []]).
  assert (O : forall e s', events s' = e :: events s -> source s s' e -> exists l, events s' = l ++ events s /\ forall e, In e l -> source s s' e)
    by (intros e s1 -> He; exists [e]; split; [reflexivity|intros e' [<-|[]]; exact He]).
  assert (C : forall t c g s1 s', events s1 = events s -> queue_call t c g s1 = Some s' -> exists l, events s' = l ++ events s /\ forall e, In e l -> source s s' e).
  { intros t c g s1 s2 He E. unfold queue_call in E. destruct (cstep (queue s1) (CCall t c)) as [q|]; [|discriminate]. injection E as <-. apply Z. exact He. }
  assert (Q : forall t pick g s', nth_error (pstages s) t = Some g -> in_queue_step t pick g s = Some s' -> exists l, events s' = l ++ events s /\ forall e, In e l -> source s s' e).
  { intros t pick g s1 Hg E. pose proof E as E0. unfold in_queue_step in E. destruct (nth_error (stages (queue s)) t) as [k|]; [|discriminate].
    fold (own k t pick) in E. destruct (cstep (queue s) (own k t pick)) as [q|]; [|discriminate].
    destruct (nth_error (stages q) t) as [[]|]; injection E as <-; try (apply Z; reflexivity).
    destruct (returned_events t g (set_queue q s)) as (evs & H1 & H2). exists evs. split; [exact H1|]. intros e He. specialize (H2 e He).
    destruct e; try exact I; try contradiction; destruct H2 as [-> ->]; exists pick; split; assumption. }
  intros E. destruct l as [t c|t pick|t| |t|t d]; cbn [pstep] in E.
  - destruct (nth_error (pstages s) t) as [g|]; [|discriminate]. destruct g; try discriminate. destruct c; cbn [pstart] in E; try (injection E as <-; apply Z; reflexivity).
    eapply C; [|exact E]. reflexivity.
  - destruct (nth_error (pstages s) t) as [g|] eqn:Hg; [|discriminate].
    destruct g as [| |id|id|id| |k| | |us| | | |id|id|]; cbn [prun] in E; try discriminate;
    try (destruct (free (slots_mutex s)); [|discriminate]);
    try (match type of E with context [if registered id s then _ else _] => destruct (registered id s) end);
    try (match type of E with context [if pool_enabled s then _ else _] => destruct (pool_enabled s) end);
    try (exact (Q _ _ _ _ Hg E));
    try (eapply C; [|exact E]; reflexivity);
    try (injection E as <-; first [apply Z; reflexivity|eapply O; [reflexivity|first [exact I|reflexivity]]]).
    + destruct k as [|k]; [injection E as <-; eapply O; [reflexivity|exact I]|]. destruct (nth_error (pstages s) pick) as [g|]; [|discriminate]. destruct g; try discriminate. injection E as <-. apply Z. reflexivity.
    + destruct us as [|u us]; [injection E as <-; eapply O; [reflexivity|exact I]|]. destruct (nth_error (pstages s) u) as [g|]; [|discriminate]. destruct g; try discriminate. injection E as <-. apply Z. reflexivity.
  - destruct (cstep (queue s) (CSpurious t)); [|discriminate]. injection E as <-. apply Z. reflexivity.
  - destruct (cstep (queue s) CTick); [|discriminate]. injection E as <-. apply Z. reflexivity.
  - destruct (cstep (queue s) (CExpire t)); [|discriminate]. injection E as <-. apply Z. reflexivity.
  - destruct (nth_error (pstages s) t) as [g|] eqn:Hg; [|discriminate]. destruct g; try discriminate. injection E as <-. eapply O; [reflexivity|exact I].
Qed.

Lemma started_grows s s' evs : events s' = evs ++ events s -> exists l, started s' = started s ++ l.
Proof. intros H. unfold started. rewrite H, rev_app_distr, flat_map_app. eexists. reflexivity. Qed.

Lemma psteps_dead n m : forall ls s s', PInv n m s -> QI (handler (queue s)) -> queue_off s -> no_pop (queue s) -> psteps s ls = Some s' ->
  taken s' = taken s /\ PInv n m s' /\ exists l, started s' = started s ++ l.
Proof.
  induction ls as [|l ls IH]; intros s s' P Q Off Np E; cbn [psteps] in E.
  - injection E as <-. split; [reflexivity|]. split; [exact P|]. exists []. symmetry. apply app_nil_r.
  - destruct (pstep s l) as [s1|] eqn:E1; [|discriminate]. pose proof (pstep_pinv _ _ _ _ _ P E1) as P1. destruct (pstep_qi _ _ _ _ _ P Q E1) as [Q1 O1]. specialize (O1 Off).
    assert (D : no_pop (queue s1) /\ consumed (queue s1) = consumed (queue s)).
    { destruct (pstep_queue _ _ _ E1) as [->|(ql & _ & Eq)]; [split; [exact Np|reflexivity]|].
      eapply cstep_dead; [exact (creachable_cinv _ _ _ _ _ (pi_queue _ _ _ P))|exact Off|exact Np|exact Eq]. }
    destruct D as [Np1 T1]. destruct (IH _ _ P1 Q1 O1 Np1 E) as (T & P' & (l2 & S2)). destruct (pstep_events _ _ _ E1) as (evs & He & _). destruct (started_grows _ _ _ He) as (l1 & S1).
    split; [unfold taken in *; congruence|]. split; [exact P'|]. exists (l1 ++ l2). rewrite S2, S1, app_assoc. reflexivity.
Qed.

Lemma never_again_lemma : forall n m s, preachable any_label (pinit n m) s -> queue_off s ->
  (forall t g, nth_error (pstages s) t = Some g -> pool_thread g = false) ->
  forall ls s', psteps s ls = Some s' -> started s' = started s.
Proof.
  intros n m s R Off Hno ls s' E. destruct (preachable_qi _ _ _ _ R) as [P Q].
  assert (Np : no_pop (queue s)).
  { intros t k Hk. assert (Hl : t < length (pstages s)) by (rewrite (pi_length _ _ _ P); apply nth_error_Some; congruence). apply nth_error_Some in Hl.
    destruct (nth_error (pstages s) t) as [g|] eqn:Hg; [|contradiction]. pose proof (pi_tie _ _ _ P t g k Hg Hk) as T. specialize (Hno t g Hg).
    destruct g; try discriminate; cbn in T; try (subst k; reflexivity). destruct T as [->| ->]; reflexivity. }
  destruct (psteps_dead _ _ _ _ _ P Q Off Np E) as (T & P' & (l & S)). rewrite S.
  destruct l as [|x l]; [apply app_nil_r|]. exfalso.
  pose proof (pi_count _ _ _ P x) as C. pose proof (pi_count _ _ _ P' x) as C'. rewrite T, S, times_app in C'. rewrite (proj2 (count_zero (holds x) (pstages s))) in C.
  - unfold times at 3 in C'. cbn [count_occ] in C'. destruct (Nat.eq_dec x x); [|congruence]. lia.
  - intros t g Hg. specialize (Hno t g Hg). destruct g; try discriminate; reflexivity.
Qed.

(** ** What the threads of the pool hold *)
Definition hold (g : pstage) : list nat := match g with PTask id => [id] | _ => [] end.
Definition held (l : list pstage) : list nat := flat_map hold l.

Lemma held_count l id : times id (held l) = count (holds id) l.
Proof.
  induction l as [|g l IH]; [reflexivity|]. unfold held in *. cbn [flat_map]. rewrite times_app, IH, count_cons. f_equal.
  destruct g; try reflexivity. cbn. destruct (Nat.eq_dec id0 id) as [->|N]; [rewrite Nat.eqb_refl; reflexivity|]. apply Nat.eqb_neq in N. rewrite N. reflexivity.
Qed.

Definition busy (g : pstage) : bool := match g with PTask _ => true | _ => false end.
Lemma held_length l : length (held l) = count busy l.
Proof. induction l as [|g l IH]; [reflexivity|]. unfold held in *. cbn [flat_map]. rewrite app_length, IH, count_cons. destruct g; reflexivity. Qed.

From Coq Require Import Permutation.
Lemma taken_permutation n m s : PInv n m s -> Permutation (taken s) (started s ++ held (pstages s)).
Proof.
  intros P. apply (Permutation_count_occ Nat.eq_dec). intros id. pose proof (pi_count _ _ _ P id) as C. unfold times in C. rewrite count_occ_app.
  pose proof (held_count (pstages s) id) as H. unfold times in H. lia.
Qed.

(** ** At most [m] threads of the pool *)
Definition hired (g : pstage) : bool := match g with PUnborn | PLoop | PConsume | PTask _ | PBody _ | PEnded => true | _ => false end.

Lemma count_move {A} (f : A -> bool) l t x y : nth_error l t = Some y -> f x = f y -> count f (upd l t x) = count f l.
Proof. intros H E. pose proof (count_upd f l t x y H). rewrite E in *. lia. Qed.

Lemma returned_hired t g s : nth_error (pstages s) t = Some g -> count hired (pstages (queue_returned t g s)) = count hired (pstages s).
Proof.
  intros Hg. destruct g; try reflexivity; cbn [queue_returned].
  - pf. eapply count_move; [exact Hg|reflexivity].
  - pf. eapply count_move; [exact Hg|reflexivity].
  - destruct (log (handler (queue s))) as [|[u w r|u w|u w] l]; pf; (eapply count_move; [exact Hg|reflexivity]).
  - destruct (results (queue s)) as [|[u x|u r|u|u] l]; try destruct r; pf; (eapply count_move; [exact Hg|reflexivity]).
Qed.

Lemma pstep_hired s l s' : pstep s l = Some s' -> count hired (pstages s') = count hired (pstages s).
Proof.
  assert (C : forall t c g g' s1 s', nth_error (pstages s) t = Some g -> hired g' = hired g -> pstages s1 = pstages s -> queue_call t c g' s1 = Some s' -> count hired (pstages s') = count hired (pstages s)).
  { intros t c g g' s1 s2 Hg Hh He E. unfold queue_call in E. destruct (cstep (queue s1) (CCall t c)) as [q|]; [|discriminate]. injection E as <-. pf. rewrite He. eapply count_move; [exact Hg|exact Hh]. }
  assert (Q : forall t pick g s', nth_error (pstages s) t = Some g -> in_queue_step t pick g s = Some s' -> count hired (pstages s') = count hired (pstages s)).
  { intros t pick g s1 Hg E. unfold in_queue_step in E. destruct (nth_error (stages (queue s)) t) as [k|]; [|discriminate].
    fold (own k t pick) in E. destruct (cstep (queue s) (own k t pick)) as [q|]; [|discriminate].
    destruct (nth_error (stages q) t) as [[]|]; injection E as <-; try reflexivity. exact (returned_hired t g (set_queue q s) Hg). }
  intros E. destruct l as [t c|t pick|t| |t|t d]; cbn [pstep] in E.
  - destruct (nth_error (pstages s) t) as [g|] eqn:Hg; [|discriminate]. destruct g; try discriminate. destruct c; cbn [pstart] in E; try (injection E as <-; pf; eapply count_move; [exact Hg|reflexivity]).
    eapply C; [exact Hg| | |exact E]; reflexivity.
  - destruct (nth_error (pstages s) t) as [g|] eqn:Hg; [|discriminate].
    destruct g as [| |id|id|id| |k| | |us| | | |id|id|]; cbn [prun] in E; try discriminate;
    try (destruct (free (slots_mutex s)); [|discriminate]);
    try (match type of E with context [if registered id s then _ else _] => destruct (registered id s) end);
    try (match type of E with context [if pool_enabled s then _ else _] => destruct (pool_enabled s) end);
    try (exact (Q _ _ _ _ Hg E));
    try (eapply C; [exact Hg| | |exact E]; reflexivity);
    try (injection E as <-; pf; eapply count_move; [exact Hg|reflexivity]).
    + destruct k as [|k]; [injection E as <-; pf; eapply count_move; [exact Hg|reflexivity]|]. destruct (nth_error (pstages s) pick) as [g|] eqn:Hq; [|discriminate]. destruct g; try discriminate. injection E as <-. pf.
      etransitivity; [apply (count_move hired _ t (PSpawn k) (PSpawn (S k)))|apply (count_move hired _ pick PLoop PUnborn Hq)]; try reflexivity. rewrite nth_upd_other by congruence. exact Hg.
    + destruct us as [|u us]; [injection E as <-; pf; eapply count_move; [exact Hg|reflexivity]|]. destruct (nth_error (pstages s) u) as [g|]; [|discriminate]. destruct g; try discriminate. injection E as <-. pf; eapply count_move; [exact Hg|reflexivity].
  - destruct (cstep (queue s) (CSpurious t)); [|discriminate]. injection E as <-. reflexivity.
  - destruct (cstep (queue s) CTick); [|discriminate]. injection E as <-. reflexivity.
  - destruct (cstep (queue s) (CExpire t)); [|discriminate]. injection E as <-. reflexivity.
  - destruct (nth_error (pstages s) t) as [g|] eqn:Hg; [|discriminate]. destruct g; try discriminate. injection E as <-. pf; eapply count_move; [exact Hg|reflexivity].
Qed.

Lemma preachable_hired allowed n m s : preachable allowed (pinit n m) s -> count hired (pstages s) = m.
Proof.
  intros R. induction R as [|s l s' R IH A E]; [|rewrite (pstep_hired _ _ _ E); exact IH].
  cbn [pstages pinit]. rewrite count_app, count_repeat' by reflexivity. cbn. clear. induction m as [|m IH]; [reflexivity|]. cbn [repeat]. rewrite count_cons, IH. reflexivity.
Qed.

Lemma count_mono {A} (f g : A -> bool) l : (forall x, f x = true -> g x = true) -> count f l <= count g l.
Proof.
  intros H. induction l as [|x l IH]; [reflexivity|]. rewrite !count_cons. specialize (H x). destruct (f x); [rewrite (H eq_refl)|destruct (g x)]; cbn; lia.
Qed.

(** ** A pool with one thread runs the tasks in order *)
Lemma cstep_taken (q q' : cstate nat) v en n l : CInv nat v en n q -> cstep q l = Some q' -> exists rest, consumed q' = consumed q ++ rest.
Proof.
  intros C E.
  assert (Own : forall t pick k, nth_error (stages q) t = Some k -> cstep q (own k t pick) = Some q' -> exists rest, consumed q' = consumed q ++ rest).
  { clear E. intros t pick k Hk E. destruct (own_effect _ _ _ _ _ Hk E) as (k' & Hst & _ & Hkk).
    assert (S : results q' = results q -> exists rest, consumed q' = consumed q ++ rest) by (intros R; exists []; rewrite app_nil_r; exact (consumed_same _ _ R)).
    assert (O : forall r, results q' = r :: results q -> exists rest, consumed q' = consumed q ++ rest) by (intros r R; eexists; exact (consumed_cons _ _ _ R)).
    destruct k; try contradiction; try (apply S; apply Hkk); (destruct Hkk as [[_ R]|(_ & r & _ & R)]; [exact (S R)|exact (O _ R)]). }
  destruct l as [t c|t|t pick|t|t|].
  - destruct (call_effect _ _ _ _ E) as (_ & _ & _ & R). exists []. rewrite app_nil_r. exact (consumed_same _ _ R).
  - pose proof E as E0. cbn [cstep] in E0. destruct (nth_error (stages q) t) as [k|] eqn:Hk; [|discriminate].
    apply (Own t 0 k Hk). destruct k; try discriminate; exact E.
  - destruct (run_shape _ _ _ _ _ _ _ _ C E) as (k & p & p' & h & r & Hk & _ & _ & _ & _ & _ & Hin & _).
    apply (Own t pick k Hk). destruct k; try discriminate; exact E.
  - destruct (quiet_effect _ _ (CSpurious t) I E) as (_ & _ & R). exists []. rewrite app_nil_r. exact (consumed_same _ _ R).
  - destruct (quiet_effect _ _ (CExpire t) I E) as (_ & _ & R). exists []. rewrite app_nil_r. exact (consumed_same _ _ R).
  - destruct (quiet_effect _ _ CTick I E) as (_ & _ & R). exists []. rewrite app_nil_r. exact (consumed_same _ _ R).
Qed.

Lemma one_thread_taken n s : preachable any_label (pinit n 1) s -> prefix (started s) (taken s).
Proof.
  intros R. induction R as [|s l s' R IH A E]; [exists []; reflexivity|].
  assert (R' : preachable any_label (pinit n 1) s') by (econstructor; eassumption).
  pose proof (preachable_pinv _ _ _ _ R) as P. pose proof (preachable_pinv _ _ _ _ R') as P'.
  assert (T : exists l2, taken s' = taken s ++ l2).
  { unfold taken. destruct (pstep_queue _ _ _ E) as [->|(ql & _ & Eq)]; [exists []; symmetry; apply app_nil_r|].
    eapply cstep_taken; [exact (creachable_cinv _ _ _ _ _ (pi_queue _ _ _ P))|exact Eq]. }
  destruct T as (l2 & T). destruct (pstep_events _ _ _ E) as (evs & He & Hsrc). destruct IH as (rest & IH).
  assert (D : (exists t id, In (EvStart t id) evs) \/ started s' = started s).
  { unfold started. rewrite He, rev_app_distr, flat_map_app. clear. induction evs as [|e evs IH]; [right; apply app_nil_r|].
    destruct IH as [(t & id & H)|H]; [left; exists t, id; right; exact H|]. cbn [rev]. rewrite flat_map_app, app_assoc, H. destruct e; try (right; apply app_nil_r). left. exists t, id. left. reflexivity. }
  destruct D as [(t & id & He')|D]; [|rewrite D, T, IH, <- app_assoc; eexists; reflexivity].
  specialize (Hsrc _ He'). cbn in Hsrc. assert (T' : taken s' = taken s) by (unfold taken; rewrite Hsrc; reflexivity). clear T l2.
  destruct (started_grows _ _ _ He) as (l1 & S1).
  pose proof (taken_permutation _ _ _ P) as Pm. pose proof (taken_permutation _ _ _ P') as Pm'. rewrite T' in Pm'.
  assert (B : count busy (pstages s) <= 1).
  { transitivity (count hired (pstages s)); [apply count_mono; intros []; try discriminate; reflexivity|rewrite (preachable_hired _ _ _ _ R); reflexivity]. }
  rewrite <- held_length in B. rewrite IH, S1 in Pm'. rewrite IH in Pm. rewrite <- app_assoc in Pm'. apply Permutation_app_inv_l in Pm. apply Permutation_app_inv_l in Pm'.
  rewrite T', IH, S1. pose proof (Permutation_length Pm) as L. destruct rest as [|x rest].
  - apply Permutation_nil in Pm'. apply app_eq_nil in Pm' as [-> _]. exists []. rewrite !app_nil_r. reflexivity.
  - destruct rest; [|cbn in L; lia]. apply Permutation_length_1_inv in Pm'. destruct l1 as [|y l1].
    + exists [x]. rewrite app_nil_r. reflexivity.
    + injection Pm' as -> Z. apply app_eq_nil in Z as [-> _]. exists []. rewrite app_nil_r. reflexivity.
Qed.

Lemma one_thread_lemma : forall n s, preachable any_label (pinit n 1) s -> prefix (started s) (emitted s).
Proof.
  intros n s R. destruct (one_thread_taken _ _ R) as (r1 & H1). destruct (pool_emitted_lemma _ _ _ R) as (_ & (r2 & H2) & _).
  exists (r1 ++ r2). rewrite H2, H1, app_assoc. reflexivity.
Qed.

(** ** No exception leaves a thread of the pool *)
Lemma no_limit (q q' : cstate nat) v en n t pick r : CInv nat v en n q -> QI (handler q) -> nth_error (stages q) t = Some SWait ->
  cstep q (CRun t pick) = Some q' -> results q' = RThrow t r :: results q -> r = Disabled.
Proof.
  intros C Q Hk E Hr. cbn [cstep] in E. rewrite Hk in E. destruct (hstep (handler q) (Run t pick)) as [h|] eqn:Eh; [|discriminate].
  destruct (hrun _ _ _ _ _ _ _ (ci_handler _ _ _ _ _ C) Eh) as (R & p & p' & Hp & Hn & Hp' & M1 & M2 & M3 & M4). rewrite Hp' in E.
  assert (X : forall rs r, @results nat q = rs -> rs <> r :: rs) by (clear; intros rs r _ H; apply (f_equal (@length _)) in H; cbn in H; lia).
  assert (N : q' <> set_handler h q) by (intros ->; cbn [results set_handler] in Hr; exact (X _ _ eq_refl Hr)).
  destruct p'; try (injection E as E; destruct (N (eq_sym E))). injection E as <-. cbn [returned log handler set_handler] in Hr.
  destruct (ci_tie _ _ _ _ _ C t _ p Hk Hp) as (w & Hw & Htk). destruct (M3 eq_refl) as [Z|(w' & r' & ->)]; [congruence|]. destruct M4 as (_ & _ & Hlog). rewrite Hlog in Hr.
  destruct r'; cbn [results report set_stage set_handler] in Hr.
  - injection Hr as <-. reflexivity.
  - exfalso. destruct (inv_ok _ _ _ (reachable_inv _ _ _ _ _ _ _ _ _ _ (ci_handler _ _ _ _ _ C)) t _ Hp) as (_ & _ & (_ & _ & Hl & _)).
    cbn in Hw. injection Hw as ->. destruct (Q t _ Hp) as [_ Q2]. apply Hl. exact (Q2 w eq_refl Htk).
  - destruct (X _ _ eq_refl Hr).
Qed.

Lemma pbounded_inv n m s : pbounded (pinit n m) s -> preachable any_label (pinit n m) s /\ bounded (cinit 0%N true (n + m)) (queue s).
Proof.
  intros R. induction R as [|s l s' R [IH1 IH2] E B]; [split; constructor|]. split; [econstructor; [exact IH1|exact I|exact E]|].
  destruct (pstep_queue _ _ _ E) as [->|(ql & _ & Eq)]; [exact IH2|]. econstructor; eassumption.
Qed.

Lemma uncaught_lemma : forall n m s, preachable any_label (pinit n m) s -> forall t, ~ In (EvUncaught t) (events s).
Proof.
  intros n m s R. induction R as [|s l s' R IH A E]; [intros t []|]. intros t Hin.
  assert (P0' : preachable any_label (pinit n m) s') by (econstructor; eassumption).
  pose proof (preachable_pinv _ _ _ _ P0') as PI'. pose proof (pi_queue _ _ _ PI') as B0'. destruct (preachable_qi _ _ _ _ R) as [P Q].
  destruct (pstep_events _ _ _ E) as (evs & He & Hsrc). rewrite He in Hin. apply in_app_or in Hin as [Hin|Hin]; [|exact (IH t Hin)].
  destruct (Hsrc _ Hin) as (pick & Hg & Eq). assert (Hev : evs <> []) by (intros ->; destruct Hin).
  unfold in_queue_step in Eq. destruct (nth_error (stages (queue s)) t) as [k|] eqn:Hk; [|discriminate]. fold (own k t pick) in Eq.
  destruct (cstep (queue s) (own k t pick)) as [q|] eqn:Ec; [|discriminate].
  pose proof (never_empty_lemma _ _ _ _ B0') as Hne.
  assert (Stay : events s' = events s -> False) by (intros Y; rewrite He in Y; destruct evs; [contradiction|]; apply (f_equal (@length _)) in Y; rewrite app_length in Y; cbn in Y; lia).
  destruct (own_effect _ _ _ _ _ Hk Ec) as (k' & Hst & _ & Hkk).
  assert (Hk' : nth_error (stages q) t = Some k') by (rewrite Hst; eapply nth_upd_same; exact Hk). rewrite Hk' in Eq.
  pose proof (pi_tie _ _ _ P t _ k Hg Hk) as Ht. cbn in Ht.
  destruct k'; try (injection Eq as <-; apply Stay; reflexivity). injection Eq as Eq.
  assert (Hq : queue s' = q) by (rewrite <- Eq; apply (returned_queue t PConsume (set_queue q s))). rewrite Hq in Hne. cbn [queue_returned queue set_queue] in Eq.
  destruct Ht as [->|Ht].
  - destruct Hkk as [[[Z|Z] _]|(_ & r & Hr & R1)]; try discriminate. rewrite R1 in Eq.
    rewrite (no_limit _ _ _ _ _ _ _ _ (creachable_cinv _ _ _ _ _ (pi_queue _ _ _ P)) Q Hk Ec R1) in Eq. rewrite <- Eq in Stay. apply Stay. reflexivity.
  - assert (X : exists r, (forall u r', r <> RThrow u r') /\ results q = r :: results (queue s)).
    { assert (Y : (qpop SIdle = true /\ results q = results (queue s)) \/ (@SIdle nat = SIdle /\ exists r, (forall u r', r <> RThrow u r') /\ results q = r :: results (queue s))) by (destruct k; try discriminate; exact Hkk).
      destruct Y as [[Y _]|[_ Y]]; [discriminate|exact Y]. }
    destruct X as (r & Hr & R1). rewrite R1 in Eq. specialize (Hne r). rewrite R1 in Hne. specialize (Hne (or_introl eq_refl)).
    destruct r as [u x|u r|u|u]; try contradiction.
    + rewrite <- Eq in Stay. apply Stay. reflexivity.
    + destruct (Hr u r eq_refl).
Qed.

(** ** wait_all_consumed *)
Lemma run_return t p pick (s s' : state N) u w r l : run (c_above 0) (c_reached 0) c_incr c_decr t p pick s = Some s' ->
  ctrl_ok p -> p <> ILock -> match p with VLock _ _ | VNotify => False | _ => True end ->
  nth_error (threads s) t = Some p -> nth_error (threads s') t = Some Idle -> log s' = EvReturn u w r :: l -> p = WRet w r.
Proof.
  intros E H Ni Hv Hp Hp' Hl.
  assert (U : forall q, nth_error (upd (threads s) t q) t = Some q) by (intros q; eapply nth_upd_same; exact Hp).
  destruct p; cbn [run] in E; try discriminate; cbn [ctrl_ok] in H; try contradiction; try subst k;
    repeat match goal with H0 : (if free ?m then _ else None) = Some _ |- _ => destruct (free m); [|discriminate] end;
    cbv zeta in E; try (exfalso; congruence).
  - injection E as <-. cbn in Hp'. rewrite U in Hp'. discriminate.
  - destruct (negb (enabled s)); injection E as <-; cbn in Hp'; rewrite U in Hp'; discriminate.
  - destruct (condition w0 s); injection E as <-; cbn in Hp'; rewrite U in Hp'; discriminate.
  - destruct timedout; injection E as <-; cbn in Hp'; rewrite U in Hp'; discriminate.
  - injection E as <-. cbn in Hp'. rewrite U in Hp'. discriminate.
  - injection E as <-. cbn in Hp'. rewrite U in Hp'. discriminate.
  - exfalso. destruct (if negb (enabled s) then Disabled else if finished then ConditionMet else Timeout);
      try (injection E as <-; cbn in Hp'; rewrite U in Hp'; discriminate).
    destruct (w_take w0); [|injection E as <-; cbn in Hp'; rewrite U in Hp'; discriminate].
    unfold decrease in E. set (s1 := set_val _ _) in E. assert (H1 : nth_error (threads s1) t = Some (WRet w0 ConditionMet)) by apply U.
    destruct (c_above 0 (value s1)).
    + apply notified_one in E as (l' & -> & (_ & _ & Hn & _) & _). cbn in Hp'. destruct (Hn t _ Hp') as (p0 & H0 & W). rewrite H1 in H0. injection H0 as <-.
      destruct W as [W|(c & W & _)]; discriminate.
    + destruct (c_reached 0 (value s1)); injection E as <-.
      * cbn [threads notify_all set_threads] in Hp'. rewrite nth_error_map, H1 in Hp'. discriminate.
      * congruence.
  - injection E as <-. cbn in Hl. injection Hl as _ -> -> _. reflexivity.
  - injection E as <-. cbn in Hl. discriminate.
  - injection E as <-. cbn in Hp'. rewrite U in Hp'. discriminate.
  - destruct (enabled s); injection E as <-.
    + cbn in Hp'. rewrite U in Hp'. discriminate.
    + cbn in Hl. discriminate.
  - injection E as <-. cbn in Hp'. rewrite U in Hp'. discriminate.
  - injection E as <-. cbn in Hl. discriminate.
Qed.

Lemma count_le3 {A B C} (f : A -> bool) (g : B -> bool) (h : C -> bool) : forall la lb lc, length la = length lc -> length lb = length lc ->
  (forall t a b c, nth_error la t = Some a -> nth_error lb t = Some b -> nth_error lc t = Some c -> b2n (f a) + b2n (g b) <= b2n (h c)) ->
  count f la + count g lb <= count h lc.
Proof.
  induction la as [|a la IH]; intros [|b lb] [|c lc] L1 L2 H; try discriminate; [apply le_n|]. rewrite !count_cons.
  pose proof (H 0 a b c eq_refl eq_refl eq_refl). cbn in L1, L2. specialize (IH lb lc ltac:(lia) ltac:(lia) (fun t x y z => H (S t) x y z)). lia.
Qed.

Definition consuming (g : pstage) : bool := match g with PConsume => true | _ => false end.

Lemma wait_tasks_lemma : forall n m s l s' t r, pbounded (pinit n m) s -> pstep s l = Some s' -> (N.of_nat (in_queue (queue s')) < 2 ^ 32)%N ->
  events s' = EvWaited t r :: events s -> r = ConditionMet ->
  length (emitted s') <= length (started s') + number pool_thread s' + number emitting s'.
Proof.
  intros n m s l s' t r R E B He ->.
  assert (R' : pbounded (pinit n m) s') by (econstructor; eassumption).
  destruct (pbounded_inv _ _ _ R) as [P0 _]. destruct (pbounded_inv _ _ _ R') as [P0' B0']. destruct (preachable_qi _ _ _ _ P0) as [P Q]. pose proof (preachable_pinv _ _ _ _ P0') as P'.
  destruct (pstep_events _ _ _ E) as (evs & He2 & Hsrc).
  assert (evs = [EvWaited t ConditionMet]) as ->.
  { rewrite He in He2. apply (app_inv_tail (events s)). symmetry. exact He2. }
  destruct (Hsrc _ (or_introl eq_refl)) as (pick & Hg & Eq). unfold in_queue_step in Eq.
  destruct (nth_error (stages (queue s)) t) as [k|] eqn:Hk; [|discriminate]. fold (own k t pick) in Eq.
  destruct (cstep (queue s) (own k t pick)) as [q|] eqn:Ec; [|discriminate]. pose proof (pi_tie _ _ _ P t _ k Hg Hk) as Ht. cbn in Ht. subst k.
  assert (V0 : value (handler (queue s')) = 0%N).
  { assert (Stay : s' <> set_queue q s) by (intros ->; cbn in He; apply (f_equal (@length _)) in He; cbn in He; lia).
    destruct (nth_error (stages q) t) as [[]|] eqn:Hk'; try (injection Eq as Eq; destruct (Stay (eq_sym Eq))). injection Eq as Eq. cbn [queue_returned queue set_queue] in Eq.
    assert (Hq : queue s' = q) by (rewrite <- Eq; destruct (log (handler q)) as [|[u w r|u w|u w] lg]; reflexivity). rewrite Hq.
    destruct (log (handler q)) as [|[u w r|u w|u w] lg] eqn:Hlog; try (rewrite <- Eq in He; cbn in He; apply (f_equal (@length _)) in He; cbn in He; lia).
    rewrite <- Eq in He. cbn in He. injection He as ->. clear Eq Hq Stay.
    pose proof (creachable_cinv _ _ _ _ _ (pi_queue _ _ _ P)) as C. cbn [own cstep] in Ec. rewrite Hk in Ec.
    destruct (hstep (handler (queue s)) (Run t pick)) as [h|] eqn:Eh; [|discriminate].
    destruct (hrun _ _ _ _ _ _ _ (ci_handler _ _ _ _ _ C) Eh) as (_ & p & p' & Hp & Hn & Hp' & M1 & M2 & M3 & M4). rewrite Hp' in Ec.
    destruct p'; try (injection Ec as <-; cbn [stages set_handler] in Hk'; congruence). injection Ec as <-. cbn [returned handler set_stage set_handler] in Hlog |- *.
    destruct (ci_tie _ _ _ _ _ C t _ p Hk Hp) as (T1 & T2 & T3). unfold hstep, c_step in Eh. cbn [step] in Eh. rewrite Hp in Eh.
    pose proof (ct_pc _ _ _ _ (reachable_counter _ _ _ _ _ _ _ _ _ (ci_handler _ _ _ _ _ C)) t p Hp) as Cp. unfold counter_pc in Cp.
    assert (p = WRet w ConditionMet) as ->.
    { eapply run_return; [exact Eh|exact (proj1 (Q t p Hp))|exact T1| |exact Hp|exact Hp'|exact Hlog]. destruct p; try exact I; exact Cp. }
    cbn in Cp. rewrite (T3 w eq_refl) in Cp. destruct Cp as [_ Cp]. destruct M4 as (_ & Hv & _). rewrite Hv.
    destruct (inv_ok _ _ _ (reachable_inv _ _ _ _ _ _ _ _ _ _ (ci_handler _ _ _ _ _ C)) t _ Hp) as (_ & _ & (_ & v & Hpv & Hvv)).
    rewrite (T3 w eq_refl) in Hvv. rewrite Hvv. rewrite Cp in Hpv. apply N.eqb_eq in Hpv. exact Hpv. }
  destruct (bounded_bal _ _ _ _ B0') as (C' & Bl & _). pose proof (ba_sum _ _ _ Bl) as Sum. rewrite V0 in Sum.
  pose proof (Permutation_length (taken_permutation _ _ _ P')) as Lt. rewrite app_length, held_length in Lt. unfold emitted. rewrite (ci_order _ _ _ _ _ C'), !app_length.
  unfold taken in Lt. rewrite Lt. unfold in_queue in Sum.
  assert (D1 : count (granted) (threads (handler (queue s'))) + count (popping nat) (stages (queue s')) <= count consuming (pstages s')).
  { apply count_le3; [rewrite (pi_length _ _ _ P'); symmetry; exact (ci_length _ _ _ _ _ C')|symmetry; exact (pi_length _ _ _ P')|].
    intros u p k g Hp Hku Hgu. pose proof (ci_tie _ _ _ _ _ C' u k p Hku Hp) as T1. pose proof (pi_tie _ _ _ P' u g k Hgu Hku) as T2.
    destruct g; cbn in T2; try (subst k; cbn in T1; subst p; reflexivity).
    - destruct T2 as [->| ->]; cbn in T1; subst p; reflexivity.
    - subst k. destruct T1 as (_ & _ & T1). destruct p; try apply Nat.le_0_l. destruct r; cbn; try apply Nat.le_0_l. rewrite (T1 w eq_refl). apply le_n.
    - subst k. destruct T1 as (_ & _ & T1). destruct p; try apply Nat.le_0_l. destruct r; cbn; try apply Nat.le_0_l. rewrite (T1 w eq_refl). apply le_n.
    - destruct T2 as [->|T2].
      + cbn [popping consuming b2n]. destruct (granted p); cbn; lia.
      + unfold qpop in T2. destruct k; try discriminate; cbn in T1; subst p; cbn; lia. }
  assert (D2 : count (fun _ : pc N => false) (threads (handler (queue s'))) + count incrementing (threads (handler (queue s'))) <= count emitting (pstages s')).
  { apply count_le3; [rewrite (pi_length _ _ _ P'); symmetry; exact (ci_length _ _ _ _ _ C')|rewrite (pi_length _ _ _ P'); symmetry; exact (ci_length _ _ _ _ _ C')|].
    intros u p p2 g Hp Hp2 Hgu. rewrite Hp in Hp2. injection Hp2 as <-. assert (Hl : u < length (stages (queue s'))) by (rewrite <- (pi_length _ _ _ P'); apply nth_error_Some; congruence).
    apply nth_error_Some in Hl. destruct (nth_error (stages (queue s')) u) as [k|] eqn:Hku; [|contradiction].
    pose proof (ci_tie _ _ _ _ _ C' u k p Hku Hp) as T1. pose proof (pi_tie _ _ _ P' u g k Hgu Hku) as T2. cbn [b2n].
    destruct g; cbn in T2; try (subst k; cbn in T1; subst p; reflexivity).
    - cbn [emitting b2n]. destruct (incrementing p); cbn; lia.
    - subst k. destruct T1 as (T1 & _). destruct p; try apply Nat.le_0_l. contradiction.
    - subst k. destruct T1 as (T1 & _). destruct p; try apply Nat.le_0_l. contradiction.
    - destruct T2 as [->|T2].
      + destruct T1 as (w & Hw & _). destruct p; try discriminate; apply Nat.le_0_l.
      + unfold qpop in T2. destruct k; try discriminate; cbn in T1; subst p; apply Nat.le_0_l. }
  assert (D3 : count busy (pstages s') + count consuming (pstages s') <= count pool_thread (pstages s')).
  { apply count_le3; [reflexivity|reflexivity|]. intros u a b c Ha Hb Hc. rewrite Ha in Hb, Hc. injection Hb as <-. injection Hc as <-. destruct a; cbn; lia. }
  unfold number. fold (count pool_thread (pstages s')). fold (count emitting (pstages s')). unfold debt in Sum. lia.
Qed.

(** ** Schedules *)
Definition runs (t k : nat) : list plabel := repeat (PRun t 0) k.

(** two threads of the pool, tasks 1 and 2 emitted in this order, 2 started first *)
Lemma order_refute : exists ls s, psteps (pinit 1 2) ls = Some s /\ emitted s = [1; 2] /\ started s = [2; 1].
Proof.
  exists ([PCall 0 (Slot 1); PRun 0 0; PCall 0 (Slot 2); PRun 0 0; PCall 0 Enable; PRun 0 2; PRun 0 1; PRun 0 2; PRun 0 0] ++
    [PCall 0 (Emit 1)] ++ runs 0 3 ++ [PCall 0 (Emit 2)] ++ runs 0 3 ++ runs 1 13 ++ runs 2 13 ++ runs 1 1).
  eexists. split; [vm_compute; reflexivity|]. split; reflexivity.
Qed.

Lemma none_left_lemma : forall n m s, pbounded (pinit n m) s -> ~ queue_off s -> (exists t, nth_error (pstages s) t = Some PConsume) ->
  (forall t g, nth_error (pstages s) t = Some g -> g = PIdle \/ g = PUnborn \/ g = PEnded \/ (g = PConsume /\ asleep s t)) ->
  Permutation (emitted s) (started s).
Proof.
  intros n m s R On (t0 & Ht0) All. destruct (pbounded_inv _ _ _ R) as [P0 B0]. pose proof (preachable_pinv _ _ _ _ P0) as P.
  destruct (bounded_bal _ _ _ _ B0) as (C & Bl & _).
  assert (St : forall t p, nth_error (threads (handler (queue s))) t = Some p ->
    p = Idle \/ exists w dl, p = WSleep w dl /\ w_take w = true /\ nth_error (stages (queue s)) t = Some SWait).
  { intros t p Hp. assert (Hl : t < length (stages (queue s))) by (rewrite (ci_length _ _ _ _ _ C); apply nth_error_Some; congruence). pose proof Hl as Hl'. apply nth_error_Some in Hl.
    destruct (nth_error (stages (queue s)) t) as [k|] eqn:Hk; [|contradiction]. rewrite <- (pi_length _ _ _ P) in Hl'. apply nth_error_Some in Hl'.
    destruct (nth_error (pstages s) t) as [g|] eqn:Hg; [|contradiction]. pose proof (pi_tie _ _ _ P t g k Hg Hk) as T. pose proof (ci_tie _ _ _ _ _ C t k p Hk Hp) as T'.
    destruct (All t g Hg) as [->|[->|[->|[-> (w & dl & Hs)]]]]; cbn in T; try (subst k; left; exact T').
    rewrite Hp in Hs. injection Hs as ->. right. exists w, dl. split; [reflexivity|]. destruct T as [->|T].
    - destruct T' as (w' & Hw & Htk). injection Hw as <-. split; [exact Htk|reflexivity].
    - unfold qpop in T. destruct k; try discriminate; cbn in T'; discriminate. }
  assert (V : value (handler (queue s)) = 0%N).
  { destruct (All t0 _ Ht0) as [X|[X|[X|[_ (w & dl & Hs)]]]]; try discriminate. destruct (St t0 _ Hs) as [X|(w' & dl' & X & Htk & _)]; [discriminate|]. injection X as <- <-.
    destruct (c_above 0 (value (handler (queue s)))) eqn:Ab; [|unfold c_above in Ab; lia]. exfalso.
    pose proof (ct_pc _ _ _ _ (reachable_counter _ _ _ _ _ _ _ _ _ (ci_handler _ _ _ _ _ C)) t0 _ Hs) as Cp. unfold counter_pc in Cp. cbn in Cp. rewrite Htk in Cp. destruct Cp as [Cv _].
    destruct (counter_wakeup_lemma _ _ _ _ _ _ _ _ _ t0 _ (ci_handler _ _ _ _ _ C) Hs) as (u & q & Hu & Hq).
    - cbn. rewrite Cv. reflexivity.
    - unfold queue_off in On. destruct (enabled (handler (queue s))); congruence.
    - exact Ab.
    - destruct (St u q Hu) as [->|(w' & dl' & -> & _)]; discriminate. }
  pose proof (ba_sum _ _ _ Bl) as Sum. rewrite V in Sum. unfold debt in Sum.
  rewrite (proj2 (count_zero granted _)), (proj2 (count_zero incrementing _)), (proj2 (count_zero (popping nat) _)) in Sum.
  - unfold in_queue in Sum. assert (emitted s = taken s) as ->.
    { unfold emitted, taken. rewrite (ci_order _ _ _ _ _ C). destruct (foreground (queue s)); [|cbn in Sum; lia]. destruct (background (queue s)); [|cbn in Sum; lia]. apply app_nil_r. }
    pose proof (taken_permutation _ _ _ P) as Pm. assert (Z : held (pstages s) = []).
    { apply length_zero_iff_nil. rewrite held_length. apply count_zero. intros t g Hg. destruct (All t g Hg) as [->|[->|[->|[-> _]]]]; reflexivity. }
    rewrite Z, app_nil_r in Pm. exact Pm.
  - intros t k Hk. assert (Hl : t < length (threads (handler (queue s)))) by (rewrite <- (ci_length _ _ _ _ _ C); apply nth_error_Some; congruence). apply nth_error_Some in Hl.
    destruct (nth_error (threads (handler (queue s))) t) as [p|] eqn:Hp; [|contradiction].
    assert (Hl2 : t < length (pstages s)) by (rewrite (pi_length _ _ _ P); apply nth_error_Some; congruence). apply nth_error_Some in Hl2.
    destruct (nth_error (pstages s) t) as [g|] eqn:Hg; [|contradiction]. pose proof (pi_tie _ _ _ P t g k Hg Hk) as T.
    destruct (All t g Hg) as [->|[->|[->|[-> (w & dl & Hs)]]]]; cbn in T; try (subst k; reflexivity).
    destruct (St t _ Hs) as [X|(w' & dl' & _ & _ & Hk2)]; [discriminate|]. rewrite Hk in Hk2. injection Hk2 as ->. reflexivity.
  - intros t p Hp. destruct (St t p Hp) as [->|(w & dl & -> & _)]; reflexivity.
  - intros t p Hp. destruct (St t p Hp) as [->|(w & dl & -> & _)]; reflexivity.
Qed.

Lemma restart_refute : exists ls1 s1, psteps (pinit 1 2) ls1 = Some s1 /\
  events s1 = [EvDisabled 0; EvEnabled 0; EvSlotted 0 1] /\
  (forall ls2 s2, psteps s1 ls2 = Some s2 -> started s2 = []) /\
  exists ls2 s2, psteps s1 ls2 = Some s2 /\ pool_enabled s2 = true /\ events s2 = [EvEmitted 0 1; EvEnabled 0] ++ events s1.
Proof.
  exists ([PCall 0 (Slot 1); PRun 0 0; PCall 0 Enable; PRun 0 1; PRun 0 1; PRun 0 0] ++ runs 1 4 ++ [PCall 0 Disable] ++ runs 0 5 ++ runs 1 5 ++ runs 0 2).
  assert (G : forall s ls s', preachable any_label (pinit 1 2) s -> psteps s ls = Some s' -> preachable any_label (pinit 1 2) s').
  { intros s ls. revert s. induction ls as [|l ls IH]; intros s s' R E; cbn [psteps] in E; [injection E as <-; exact R|].
    destruct (pstep s l) as [s0|] eqn:E0; [|discriminate]. apply (IH s0); [|exact E]. econstructor; [exact R|exact I|exact E0]. }
  destruct (psteps (pinit 1 2) ([PCall 0 (Slot 1); PRun 0 0; PCall 0 Enable; PRun 0 1; PRun 0 1; PRun 0 0] ++ runs 1 4 ++ [PCall 0 Disable] ++ runs 0 5 ++ runs 1 5 ++ runs 0 2)) as [s1|] eqn:E1;
    [|vm_compute in E1; discriminate].
  exists s1. split; [reflexivity|]. pose proof (G _ _ _ (preach_init _ _) E1) as R. vm_compute in E1. injection E1 as E1.
  split; [rewrite <- E1; reflexivity|]. split.
  - intros ls2 s2 E2. rewrite (never_again_lemma _ _ _ R) with (ls := ls2) (s' := s2); [rewrite <- E1; reflexivity| | |exact E2].
    + rewrite <- E1. reflexivity.
    + rewrite <- E1. intros [|[|[|t]]] g Hg; cbn in Hg; try (injection Hg as <-; reflexivity). destruct t; discriminate.
  - exists ([PCall 0 Enable; PRun 0 1; PRun 0 2; PRun 0 0; PCall 0 (Emit 1)] ++ runs 0 3 ++ runs 2 4). rewrite <- E1.
    eexists. split; [vm_compute; reflexivity|]. split; reflexivity.
Qed.

Lemma wait_tasks_refute : exists ls s, psteps (pinit 1 1) ls = Some s /\
  events s = [EvWaited 0 ConditionMet; EvEmitted 0 1; EvEnabled 0; EvSlotted 0 1] /\ emitted s = [1] /\ started s = [].
Proof.
  exists ([PCall 0 (Slot 1); PRun 0 0; PCall 0 Enable; PRun 0 1; PRun 0 1; PRun 0 0; PCall 0 (Emit 1)] ++ runs 0 3 ++ runs 1 7 ++ [PCall 0 (WaitTasks 0)] ++ runs 0 6).
  eexists. split; [vm_compute; reflexivity|]. split; [reflexivity|]. split; reflexivity.
Qed.

Lemma psteps_reachable n m ls : forall s s', preachable any_label (pinit n m) s -> psteps s ls = Some s' -> preachable any_label (pinit n m) s'.
Proof.
  induction ls as [|l ls IH]; intros s s' R E; cbn [psteps] in E; [injection E as <-; exact R|].
  destruct (pstep s l) as [s0|] eqn:E0; [|discriminate]. apply (IH s0); [|exact E]. econstructor; [exact R|exact I|exact E0].
Qed.

Fixpoint psteps_checked (s : pstate) (ls : list plabel) : option pstate :=
  match ls with
  | [] => Some s
  | l :: ls' => match pstep s l with Some s' => if (N.of_nat (in_queue (queue s')) <? 2 ^ 32)%N then psteps_checked s' ls' else None | None => None end
  end.
Lemma psteps_bounded n m ls : forall s s', pbounded (pinit n m) s -> psteps_checked s ls = Some s' -> pbounded (pinit n m) s'.
Proof.
  induction ls as [|l ls IH]; intros s s' R E; cbn [psteps_checked] in E; [injection E as <-; exact R|].
  destruct (pstep s l) as [s0|] eqn:E0; [|discriminate]. destruct (N.ltb_spec (N.of_nat (in_queue (queue s0))) (2 ^ 32)) as [L|L]; [|discriminate].
  apply (IH s0); [|exact E]. econstructor; [exact R|exact E0|exact L].
Qed.
