(** Proofs of C126 and C127. *)
From Coq Require Import NArith List Bool Arith Lia ZifyBool ZifyNat ZifyN.
From Verif Require Import Wait_spec Wait_proofs Consumer_model Consumer_spec Consumer_proofs Pool_model Pool_spec Pool_proofs PoolStop_proofs PoolTask_spec.
Import ListNotations.

(** ** The shape of a step *)
Inductive hop (s s' : pstate) (t : nat) : pstage -> pstage -> list pevent -> Prop :=
| h_call g : match g with PEmit _ | PSlot _ | PEnable | PDisable | PWaitTasks => True | _ => False end -> slots_mutex s' = slots_mutex s -> hop s s' t PIdle g []
| h_refused id : slots_mutex s' = slots_mutex s -> hop s s' t (PEmit id) PIdle [EvEmitRefused t id]
| h_produce id : slots_mutex s = None -> slots_mutex s' = Some t -> hop s s' t (PEmit id) (PProduce id) []
| h_emitted id : slots_mutex s' = None -> hop s s' t (PProduce id) PIdle [EvEmitted t id]
| h_slotted id e : (e = EvSlotted t id \/ e = EvSlotRefused t id) -> slots_mutex s' = slots_mutex s -> hop s s' t (PSlot id) PIdle [e]
| h_enabled g : (g = PEnable \/ g = PSpawn 0) -> slots_mutex s' = slots_mutex s -> hop s s' t g PIdle [EvEnabled t]
| h_spawning k : slots_mutex s' = slots_mutex s -> hop s s' t PEnable (PSpawn k) []
| h_disabled g : (g = PDisable \/ g = PJoin []) -> slots_mutex s' = slots_mutex s -> hop s s' t g PIdle [EvDisabled t]
| h_queue_off : slots_mutex s' = slots_mutex s -> hop s s' t PDisable PQueueOff []
| h_join us : slots_mutex s' = slots_mutex s -> hop s s' t PQueueOff (PJoin us) []
| h_joined u us : nth_error (pstages s) u = Some PEnded -> slots_mutex s' = slots_mutex s -> hop s s' t (PJoin (u :: us)) (PJoin us) []
| h_waited evs : (evs = [] \/ exists r, evs = [EvWaited t r]) -> slots_mutex s' = slots_mutex s -> hop s s' t PWaitTasks PIdle evs
| h_consume : slots_mutex s' = slots_mutex s -> hop s s' t PLoop PConsume []
| h_taken id : slots_mutex s' = slots_mutex s -> hop s s' t PConsume (PTask id) []
| h_ended evs pick : (evs = [] \/ evs = [EvUncaught t]) -> in_queue_step t pick PConsume s = Some s' -> slots_mutex s' = slots_mutex s -> hop s s' t PConsume PEnded evs
| h_start id : slots_mutex s' = slots_mutex s -> hop s s' t (PTask id) (PBody id) [EvStart t id]
| h_abort id : slots_mutex s' = slots_mutex s -> hop s s' t (PTask id) PEnded [EvAbort t id]
| h_end id : slots_mutex s' = slots_mutex s -> hop s s' t (PBody id) PLoop [EvEnd t id]
| h_thrown id d : slots_mutex s' = slots_mutex s -> hop s s' t (PBody id) PEnded [EvThrown t id d].

Definition by_thread (l : plabel) (t : nat) : Prop := (exists c, l = PCall t c) \/ (exists pick, l = PRun t pick) \/ (exists d, l = PThrow t d).

Definition shape (s s' : pstate) (l : plabel) : Prop :=
  (pstages s' = pstages s /\ events s' = events s /\ slots_mutex s' = slots_mutex s) \/
  (exists t g g' evs, by_thread l t /\ nth_error (pstages s) t = Some g /\ pstages s' = upd (pstages s) t g' /\ events s' = evs ++ events s /\ hop s s' t g g' evs) \/
  (exists t u k, by_thread l t /\ nth_error (pstages s) t = Some (PSpawn (S k)) /\ nth_error (pstages s) u = Some PUnborn /\
    pstages s' = upd (upd (pstages s) u PLoop) t (PSpawn k) /\ events s' = events s /\ slots_mutex s' = slots_mutex s).

Lemma pstep_shape s l s' : pstep s l = Some s' -> shape s s' l.
Proof.
  intros E.
  assert (H : forall t g g' evs, by_thread l t -> nth_error (pstages s) t = Some g -> pstages s' = upd (pstages s) t g' -> events s' = evs ++ events s -> hop s s' t g g' evs -> shape s s' l)
    by (intros t g g' evs B Hg Hs He Hh; right; left; exists t, g, g', evs; auto).
  destruct l as [t c|t pick|t| |t|t d]; cbn [pstep] in E.
  - assert (B : by_thread (PCall t c) t) by (left; eexists; reflexivity).
    destruct (nth_error (pstages s) t) as [g|] eqn:Hg; [|discriminate]. destruct g; try discriminate. destruct c; cbn [pstart] in E;
    try (injection E as <-; eapply H; [exact B|exact Hg|reflexivity| |apply h_call; [exact I|reflexivity]]; reflexivity).
    unfold queue_call in E. destruct (cstep _ _) as [q|]; [|discriminate]. injection E as <-. eapply H; [exact B|exact Hg|reflexivity| |apply h_call; [exact I|reflexivity]]; reflexivity.
  - assert (B : by_thread (PRun t pick) t) by (right; left; eexists; reflexivity).
    destruct (nth_error (pstages s) t) as [g|] eqn:Hg; [|discriminate].
    assert (Q : in_queue_step t pick g s = Some s' -> match g with PProduce _ | PQueueOff | PWaitTasks | PConsume => True | _ => False end -> shape s s' (PRun t pick)).
    { intros E1 Hk. pose proof E1 as E2. unfold in_queue_step in E1. destruct (nth_error (stages (queue s)) t) as [k|]; [|discriminate].
      fold (own k t pick) in E1. destruct (cstep (queue s) (own k t pick)) as [q|]; [|discriminate].
      assert (Stay : s' = set_queue q s -> shape s s' (PRun t pick)) by (intros ->; left; repeat split).
      destruct (nth_error (stages q) t) as [[]|]; injection E1 as E1; try (apply Stay; symmetry; exact E1).
      destruct g; try contradiction; cbn [queue_returned] in E1.
      - rewrite <- E1 in *. eapply H; [exact B|exact Hg|reflexivity| |apply h_emitted; reflexivity]; reflexivity.
      - rewrite <- E1 in *. eapply H; [exact B|exact Hg|reflexivity| |apply h_join; reflexivity]; reflexivity.
      - destruct (log (handler (queue (set_queue q s)))) as [|[u w r|u w|u w] ws]; rewrite <- E1 in *;
          first [solve [eapply H; [exact B|exact Hg|reflexivity| |apply h_waited; [left; reflexivity|reflexivity]]; reflexivity]|
            eapply H; [exact B|exact Hg|reflexivity| |apply h_waited; [right; eexists; reflexivity|reflexivity]]; reflexivity].
      - destruct (results (queue (set_queue q s))) as [|[u x|u r|u|u] ws]; try destruct r; rewrite <- E1 in *;
          first [solve [eapply H; [exact B|exact Hg|reflexivity| |apply h_taken; reflexivity]; reflexivity]|
          solve [eapply H; [exact B|exact Hg|reflexivity| |eapply h_ended; [left; reflexivity|exact E2|reflexivity]]; reflexivity]|
          eapply H; [exact B|exact Hg|reflexivity| |eapply h_ended; [right; reflexivity|exact E2|reflexivity]]; reflexivity]. }
    destruct g as [| |id|id|id| |k| | |us| | | |id|id|]; cbn [prun] in E; try discriminate; try (exact (Q E I)).
    + destruct (free (slots_mutex s)) eqn:F; [|discriminate]. apply free_none in F. destruct (registered id s).
      * unfold queue_call in E. destruct (cstep _ _) as [q|]; [|discriminate]. injection E as <-. eapply H; [exact B|exact Hg|reflexivity| |apply h_produce; [exact F|reflexivity]]; reflexivity.
      * injection E as <-. eapply H; [exact B|exact Hg|reflexivity| |apply h_refused; reflexivity]; reflexivity.
    + destruct (free (slots_mutex s)); [|discriminate]. destruct (registered id s); injection E as <-;
        first [solve [eapply H; [exact B|exact Hg|reflexivity| |apply h_slotted; [left; reflexivity|reflexivity]]; reflexivity]|
        eapply H; [exact B|exact Hg|reflexivity| |apply h_slotted; [right; reflexivity|reflexivity]]; reflexivity].
    + destruct (pool_enabled s); injection E as <-.
      * eapply H; [exact B|exact Hg|reflexivity| |apply h_enabled; [left; reflexivity|reflexivity]]; reflexivity.
      * eapply H; [exact B|exact Hg|reflexivity| |apply h_spawning; reflexivity]; reflexivity.
    + destruct k as [|k].
      * injection E as <-. eapply H; [exact B|exact Hg|reflexivity| |apply h_enabled; [right; reflexivity|reflexivity]]; reflexivity.
      * destruct (nth_error (pstages s) pick) as [g|] eqn:Hp; [|discriminate]. destruct g; try discriminate. injection E as <-. right. right. exists t, pick, k.
        split; [exact B|]. split; [exact Hg|]. split; [exact Hp|]. repeat split.
    + destruct (pool_enabled s).
      * unfold queue_call in E. destruct (cstep _ _) as [q|]; [|discriminate]. injection E as <-. eapply H; [exact B|exact Hg|reflexivity| |apply h_queue_off; reflexivity]; reflexivity.
      * injection E as <-. eapply H; [exact B|exact Hg|reflexivity| |apply h_disabled; [left; reflexivity|reflexivity]]; reflexivity.
    + destruct us as [|u us].
      * injection E as <-. eapply H; [exact B|exact Hg|reflexivity| |apply h_disabled; [right; reflexivity|reflexivity]]; reflexivity.
      * destruct (nth_error (pstages s) u) as [g|] eqn:Hu; [|discriminate]. destruct g; try discriminate. injection E as <-. eapply H; [exact B|exact Hg|reflexivity| |apply h_joined; [exact Hu|reflexivity]]; reflexivity.
    + unfold queue_call in E. destruct (cstep _ _) as [q|]; [|discriminate]. injection E as <-. eapply H; [exact B|exact Hg|reflexivity| |apply h_consume; reflexivity]; reflexivity.
    + destruct (free (slots_mutex s)); [|discriminate]. destruct (registered id s); injection E as <-.
      * eapply H; [exact B|exact Hg|reflexivity| |apply h_start; reflexivity]; reflexivity.
      * eapply H; [exact B|exact Hg|reflexivity| |apply h_abort; reflexivity]; reflexivity.
    + injection E as <-. eapply H; [exact B|exact Hg|reflexivity| |apply h_end; reflexivity]; reflexivity.
  - destruct (cstep (queue s) (CSpurious t)); [|discriminate]. injection E as <-. left. repeat split.
  - destruct (cstep (queue s) CTick); [|discriminate]. injection E as <-. left. repeat split.
  - destruct (cstep (queue s) (CExpire t)); [|discriminate]. injection E as <-. left. repeat split.
  - destruct (nth_error (pstages s) t) as [g|] eqn:Hg; [|discriminate]. destruct g; try discriminate. injection E as <-.
    eapply H; [right; right; eexists; reflexivity|exact Hg|reflexivity| |apply h_thrown; reflexivity]; reflexivity.
Qed.

(** ** The owners of the mutexes *)
Definition slots_ok (s : pstate) : Prop := forall v, slots_mutex s = Some v <-> exists id, nth_error (pstages s) v = Some (PProduce id).

Lemma pstep_slots s l s' : slots_ok s -> pstep s l = Some s' -> slots_ok s'.
Proof.
  intros K E. destruct (pstep_shape _ _ _ E) as [(H1 & _ & H2)|[(t & g & g' & evs & _ & Hg & Hs & _ & Hh)|(t & u & k & _ & Ht & Hu & Hs & _ & H2)]].
  - intros v. rewrite H1, H2. apply K.
  - assert (Same : slots_mutex s' = slots_mutex s -> (forall id, g <> PProduce id) -> (forall id, g' <> PProduce id) -> slots_ok s').
    { intros Hm N N' v. rewrite Hm, Hs. split.
      - intros Hv. apply K in Hv as (id & Hv). exists id. destruct (Nat.eq_dec t v) as [->|D]; [congruence|]. rewrite nth_upd_other by exact D. exact Hv.
      - intros (id & Hv). apply nth_upd in Hv as [[-> X]|[D Hv]]; [congruence|]. apply K. exists id. exact Hv. }
    destruct Hh; try (apply Same; [assumption|discriminate|discriminate]).
    + apply Same; [assumption|discriminate|intros id ->; contradiction].
    + intros v. rewrite Hs. split.
      * intros Hv. rewrite H0 in Hv. injection Hv as <-. exists id. eapply nth_upd_same. exact Hg.
      * intros (i & Hv). apply nth_upd in Hv as [[-> X]|[D Hv]]; [exact H0|]. exfalso. assert (X : slots_mutex s = Some v) by (apply K; exists i; exact Hv). congruence.
    + intros v. rewrite Hs. split; [intros Hv; congruence|]. intros (i & Hv). apply nth_upd in Hv as [[-> X]|[D Hv]]; [discriminate|]. exfalso.
      assert (X : slots_mutex s = Some v) by (apply K; exists i; exact Hv). assert (Y : slots_mutex s = Some t) by (apply K; exists id; exact Hg). congruence.
    + apply Same; [assumption|destruct H as [-> | ->]; discriminate|discriminate].
    + apply Same; [assumption|destruct H as [-> | ->]; discriminate|discriminate].
  - intros v. rewrite H2, Hs. split.
    + intros Hv. apply K in Hv as (id & Hv). exists id. rewrite !nth_upd_other by congruence. exact Hv.
    + intros (id & Hv). apply nth_upd in Hv as [[-> X]|[D Hv]]; [discriminate|]. apply nth_upd in Hv as [[-> X]|[D' Hv]]; [discriminate|]. apply K. exists id. exact Hv.
Qed.

Lemma preachable_slots allowed n m s : preachable allowed (pinit n m) s -> slots_ok s.
Proof.
  intros R. induction R as [|s l s' R IH A E]; [|exact (pstep_slots _ _ _ IH E)].
  intros v. cbn [slots_mutex pinit]. split; [discriminate|]. intros (id & Hv). apply init_stage in Hv as [Hv|Hv]; discriminate.
Qed.

Notation hreach v en n := (reachable (c_above 0) (c_reached 0) c_incr c_decr counter_client (init v en n)).

Lemma owner_lemma v en n h u : hreach v en n h -> mutex h = Some u -> exists p, nth_error (threads h) u = Some p.
Proof.
  intros R. revert u. induction R as [|h l h' R IH A E]; intros u Hu; [discriminate|].
  destruct (step_good _ _ _ _ _ _ _ _ (reachable_inv _ _ _ _ _ _ _ _ _ _ R) E) as [[-> ->]|(t & p & p' & M & _)]; [exact (IH u Hu)|].
  destruct (Nat.eq_dec u t) as [->|D]; [exists p'; exact (mv_self _ _ _ _ _ _ M)|].
  apply (mv_mutex _ _ _ _ _ _ M u D) in Hu. destruct (IH u Hu) as (q & Hq). destruct (mv_thr _ _ _ _ _ _ M) as (_ & _ & _ & Hn).
  destruct (Hn u q) as (q' & Hq' & _); [rewrite nth_upd_other by congruence; exact Hq|]. exists q'. exact Hq'.
Qed.

(** ** The owner of the mutex of the counter releases it *)
Definition rank (p : pc N) : nat :=
  match p with WCheck _ => 6 | WTest _ _ | WFinal _ _ => 5 | WExit _ _ _ => 4 | WReason _ _ _ => 3 | WRet _ _ => 1 | _ => 0 end.
Definition mutex_rank (h : state N) : nat := match mutex h with Some v => match nth_error (threads h) v with Some p => rank p | None => 0 end | None => 0 end.

Lemma some_pick {V} c (s : state V) : exists pick s', notify_one c pick s = Some s'.
Proof.
  unfold notify_one. destruct (existsb (sleeping c) (threads s)) eqn:E; [|exists 0; eexists; reflexivity].
  apply existsb_exists in E as (p & Hin & Hp). apply In_nth_error in Hin as (i & Hi). exists i. rewrite Hi, Hp. eexists. reflexivity.
Qed.

Lemma holder_runs v en n h u : hreach v en n h -> mutex h = Some u -> exists pick h', hstep h (Run u pick) = Some h' /\ mutex_rank h' < mutex_rank h.
Proof.
  intros R Hu. destruct (owner_lemma _ _ _ _ _ R Hu) as (p & Hp). destruct (inv_ok _ _ _ (reachable_inv _ _ _ _ _ _ _ _ _ _ R) u p Hp) as ((_ & Hh) & _ & _). specialize (Hh Hu).
  assert (Rk : mutex_rank h = rank p) by (unfold mutex_rank; rewrite Hu, Hp; reflexivity).
  assert (Go : forall p' h', threads h' = upd (threads h) u p' -> mutex h' = Some u -> rank p' < rank p -> mutex_rank h' < mutex_rank h).
  { intros p' h' Ht Hm Hr. rewrite Rk. unfold mutex_rank. rewrite Hm, Ht, (nth_upd_same _ _ _ _ Hp). exact Hr. }
  assert (Out : forall h', mutex h' = None -> 0 < rank p -> mutex_rank h' < mutex_rank h) by (intros h' Hm Hr; rewrite Rk; unfold mutex_rank; rewrite Hm; exact Hr).
  unfold hstep, c_step. cbn [step]. rewrite Hp. destruct p; try discriminate; cbn [run].
  - destruct (negb (enabled h)); exists 0; eexists; (split; [reflexivity|]); (eapply Go; [reflexivity|exact Hu|cbn; lia]).
  - destruct (condition w h); exists 0; eexists; (split; [reflexivity|]).
    + eapply Go; [reflexivity|exact Hu|cbn; lia].
    + apply Out; [reflexivity|cbn; lia].
  - exists 0. eexists. split; [reflexivity|]. eapply Go; [reflexivity|exact Hu|cbn; lia].
  - exists 0. eexists. split; [reflexivity|]. eapply Go; [reflexivity|exact Hu|cbn; lia].
  - cbv zeta. destruct (if negb (enabled h) then Disabled else if finished then ConditionMet else Timeout); try (exists 0; eexists; split; [reflexivity|]; eapply Go; [reflexivity|exact Hu|cbn; lia]).
    destruct (w_take w); [|exists 0; eexists; split; [reflexivity|]; eapply Go; [reflexivity|exact Hu|cbn; lia]].
    unfold decrease. set (s1 := set_val _ _). assert (H1 : nth_error (threads s1) u = Some (WRet w ConditionMet)) by (eapply nth_upd_same; exact Hp).
    assert (N : forall l, notified N (threads s1) l -> mutex_rank (set_threads l s1) < mutex_rank h).
    { intros l (_ & _ & _ & Hn). rewrite Rk. unfold mutex_rank. change (mutex (set_threads l s1)) with (mutex h). rewrite Hu. cbn [threads set_threads].
      destruct (Hn u _ H1) as (q & Hq & W). rewrite Hq. apply woken_awake in W; [|discriminate]. subst q. cbn. lia. }
    destruct (c_above 0 (value s1)).
    + destruct (some_pick Main s1) as (pick & s2 & E2). exists pick, s2. split; [exact E2|]. apply notified_one in E2 as (l & -> & Hn & _). apply N. exact Hn.
    + exists 0. destruct (c_reached 0 (value s1)); eexists; (split; [reflexivity|]).
      * apply N. apply notified_all.
      * eapply Go; [reflexivity|exact Hu|cbn; lia].
  - exists 0. eexists. split; [reflexivity|]. apply Out; [reflexivity|cbn; lia].
Qed.

(** ** emit and slot return *)
Definition kind (g : pstage) : option (bool * nat) := match g with PEmit id | PProduce id => Some (true, id) | PSlot id => Some (false, id) | _ => None end.
Definition done (b : bool) (u id : nat) (e : pevent) : Prop :=
  if b then e = EvEmitted u id \/ e = EvEmitRefused u id else e = EvSlotted u id \/ e = EvSlotRefused u id.

Definition slots_rank (s : pstate) : nat :=
  match slots_mutex s with Some v => match nth_error (stages (queue s)) v with Some (SPush _) => 2 | _ => 1 end | None => 0 end.
Definition own_rank (s : pstate) (u : nat) : nat := match nth_error (pstages s) u with Some (PEmit _) => 3 | Some (PSlot _) => 1 | _ => 0 end.
Definition measure (s : pstate) (u : nat) : nat := mutex_rank (handler (queue s)) + slots_rank s + own_rank s u.

Lemma same_length {A B} (l : list A) (l' : list B) t x : length l = length l' -> nth_error l t = Some x -> exists y, nth_error l' t = Some y.
Proof.
  intros L H. assert (X : nth_error l t <> None) by congruence. apply nth_error_Some in X. rewrite L in X. apply nth_error_Some in X.
  destruct (nth_error l' t) as [y|]; [exists y; reflexivity|contradiction].
Qed.

Definition next (s : pstate) (u : nat) (b : bool) (id : nat) : Prop :=
  exists v pick g0 s', nth_error (pstages s) v = Some g0 /\ inside_operation g0 = true /\ pstep s (PRun v pick) = Some s' /\
  ((nth_error (pstages s') u = Some PIdle /\ exists e evs, events s' = e :: evs /\ done b u id e) \/
   (exists g', nth_error (pstages s') u = Some g' /\ kind g' = Some (b, id) /\ measure s' u < measure s u)).

Lemma next_lemma n m s u g b id : preachable any_label (pinit n m) s -> nth_error (pstages s) u = Some g -> kind g = Some (b, id) -> next s u b id.
Proof.
  intros R Hu Hk. pose proof (preachable_pinv _ _ _ _ R) as P. pose proof (preachable_slots _ _ _ _ R) as K. pose proof (creachable_cinv _ _ _ _ _ (pi_queue _ _ _ P)) as C.
  set (h := handler (queue s)). pose proof (reachable_inv _ _ _ _ _ _ _ _ _ _ (ci_handler _ _ _ _ _ C)) as Iv.
  assert (Thr : forall t g0, nth_error (pstages s) t = Some g0 -> exists k p, nth_error (stages (queue s)) t = Some k /\ nth_error (threads h) t = Some p /\ ptie g0 k /\ tie nat k p).
  { intros t g0 Hg0. destruct (same_length _ _ _ _ (pi_length _ _ _ P) Hg0) as (k & Hk0). destruct (same_length _ _ _ _ (ci_length _ _ _ _ _ C) Hk0) as (p & Hp).
    exists k, p. split; [exact Hk0|]. split; [exact Hp|]. split; [exact (pi_tie _ _ _ P _ _ _ Hg0 Hk0)|exact (ci_tie _ _ _ _ _ C _ _ _ Hk0 Hp)]. }
  destruct (mutex h) as [v|] eqn:Hm.
  - (* the owner of the mutex of the counter *)
    destruct (owner_lemma _ _ _ _ _ (ci_handler _ _ _ _ _ C) Hm) as (p & Hp). destruct (inv_ok _ _ _ Iv v p Hp) as ((_ & Hh) & _ & _). specialize (Hh Hm).
    destruct (same_length _ _ _ _ (eq_sym (ci_length _ _ _ _ _ C)) Hp) as (k & Hkv). destruct (same_length _ _ _ _ (eq_sym (pi_length _ _ _ P)) Hkv) as (gv & Hgv).
    pose proof (pi_tie _ _ _ P _ _ _ Hgv Hkv) as T1. pose proof (ci_tie _ _ _ _ _ C _ _ _ Hkv Hp) as T2.
    assert (Kk : k = SWait \/ k = SOther) by (destruct k; auto; cbn in T2; subst p; discriminate).
    assert (Kg : gv = PConsume \/ gv = PWaitTasks \/ gv = PQueueOff).
    { destruct Kk as [-> | ->]; destruct gv; cbn in T1; auto; try discriminate; destruct T1; discriminate. }
    destruct (holder_runs _ _ _ _ _ (ci_handler _ _ _ _ _ C) Hm) as (pick & h' & Eh & Hr). fold h in Eh, Hr.
    assert (Eq : exists q, cstep (queue s) (own k v pick) = Some q /\ handler q = h').
    { assert (own k v pick = CRun v pick) as -> by (destruct Kk as [-> | ->]; reflexivity). cbn [cstep]. rewrite Hkv. fold h. rewrite Eh.
      destruct (nth_error (threads h') v) as [[]|]; try (eexists; split; [reflexivity|reflexivity]).
      eexists. split; [reflexivity|]. destruct Kk as [-> | ->]; [|reflexivity]. unfold returned. destruct (log (handler (set_handler h' (queue s)))) as [|[? ? []|? ?|? ?] ?]; reflexivity. }
    destruct Eq as (q & Eq & Hq). destruct (own_effect _ _ _ _ _ Hkv Eq) as (k' & Hst & _).
    assert (Es : exists s', pstep s (PRun v pick) = Some s' /\ queue s' = q).
    { cbn [pstep]. rewrite Hgv. assert (prun v pick gv s = in_queue_step v pick gv s) as -> by (destruct Kg as [-> |[-> | ->]]; reflexivity).
      unfold in_queue_step. rewrite Hkv. fold (own k v pick). rewrite Eq. destruct (nth_error (stages q) v) as [[]|]; try (eexists; split; [reflexivity|reflexivity]).
      eexists. split; [reflexivity|]. apply returned_queue. }
    destruct Es as (s' & Es & Hq'). exists v, pick, gv, s'. split; [exact Hgv|]. split; [destruct Kg as [-> |[-> | ->]]; reflexivity|]. split; [exact Es|].
    assert (D : u <> v). { intros ->. rewrite Hgv in Hu. injection Hu as ->. destruct Kg as [-> |[-> | ->]]; discriminate. }
    right. exists g.
    assert (Sh : nth_error (pstages s') u = Some g /\ slots_mutex s' = slots_mutex s).
    { destruct (pstep_shape _ _ _ Es) as [(H1 & _ & H2)|[(t & g0 & g' & evs & B & Hg & Hs & _ & Hh')|(t & w & j & B & Ht & Hw & Hs & _ & H2)]].
      - rewrite H1, H2. split; [exact Hu|reflexivity].
      - assert (t = v) as -> by (destruct B as [(c & X)|[(pk & X)|(d & X)]]; congruence). rewrite Hs, nth_upd_other by congruence. split; [exact Hu|].
        rewrite Hgv in Hg. injection Hg as <-. destruct Hh'; try assumption; destruct Kg as [X|[X|X]]; discriminate.
      - assert (t = v) as -> by (destruct B as [(c & X)|[(pk & X)|(d & X)]]; congruence). rewrite Ht in Hgv. injection Hgv as <-. destruct Kg as [X|[X|X]]; discriminate. }
    destruct Sh as [Sh1 Sh2]. split; [exact Sh1|]. split; [exact Hk|].
    assert (X1 : own_rank s' u = own_rank s u) by (unfold own_rank; rewrite Sh1, Hu; reflexivity).
    assert (X2 : slots_rank s' = slots_rank s).
    { unfold slots_rank. rewrite Sh2, Hq', Hst. destruct (slots_mutex s) as [w|] eqn:Hw; [|reflexivity]. apply K in Hw as (i & Hw).
      rewrite nth_upd_other; [reflexivity|]. intros <-. rewrite Hgv in Hw. injection Hw as ->. destruct Kg as [X|[X|X]]; discriminate. }
    unfold measure. rewrite X1, X2, Hq', Hq. fold h. lia.
  - destruct (slots_mutex s) as [v|] eqn:Hsm.
    + (* the owner of slots_mutex_ *)
      pose proof Hsm as Hsm'. apply K in Hsm' as (iv & Hgv). destruct (Thr v _ Hgv) as (k & p & Hkv & Hpv & T1 & T2). cbn in T1.
      destruct T1 as [-> | ->]; cbn in T2; subst p.
      * (* adds the task to the queue *)
        assert (Eh : hstep h (Call v Increment) = Some (set_pc v ILock h)) by (unfold hstep, c_step; cbn [step]; rewrite Hpv; reflexivity).
        exists v, 0, (PProduce iv). eexists. split; [exact Hgv|]. split; [reflexivity|]. split.
        { cbn [pstep]. rewrite Hgv. cbn [prun]. unfold in_queue_step. rewrite Hkv. cbn [cstep]. rewrite Hkv. cbn [queue_step]. fold h. rewrite Eh. cbn [stages set_stage]. cf.
          rewrite (nth_upd_same _ _ _ _ Hkv). reflexivity. }
        right. exists g. pf. split; [exact Hu|]. split; [exact Hk|]. unfold measure, slots_rank, own_rank, mutex_rank. pf. cf.
        cbn [mutex set_pc]. fold h. rewrite Hm, Hsm, Hkv, (nth_upd_same _ _ _ _ Hkv). lia.
      * (* increments the counter *)
        assert (Eh : exists pick h', hstep h (Run v pick) = Some h' /\ nth_error (threads h') v = Some Idle /\ mutex h' = None).
        { unfold hstep, c_step. cbn [step]. rewrite Hpv. cbn [run]. rewrite Hm. cbn [free]. cbv zeta. set (s1 := set_pc v Idle _).
          assert (H1 : nth_error (threads s1) v = Some Idle) by (eapply nth_upd_same; exact Hpv). destruct (c_above 0 (value s1)).
          - destruct (some_pick Main s1) as (pick & s2 & E2). exists pick, s2. split; [exact E2|]. apply notified_one in E2 as (l & -> & (_ & _ & _ & Hn) & _).
            destruct (Hn v _ H1) as (p & Hp & W). apply woken_awake in W; [|discriminate]. subst p. split; [exact Hp|exact Hm].
          - exists 0, s1. split; [reflexivity|]. split; [exact H1|exact Hm]. }
        destruct Eh as (pick & h' & Eh & Ei & Em).
        assert (Es : exists s', pstep s (PRun v pick) = Some s' /\ pstages s' = upd (pstages s) v PIdle /\ events s' = EvEmitted v iv :: events s /\ slots_mutex s' = None /\ handler (queue s') = h').
        { cbn [pstep]. rewrite Hgv. cbn [prun]. unfold in_queue_step. rewrite Hkv. cbn [cstep]. rewrite Hkv. fold h. rewrite Eh, Ei. cbn [returned]. cf.
          rewrite (nth_upd_same _ _ _ _ Hkv). eexists. split; [reflexivity|]. repeat split. }
        destruct Es as (s' & Es & S1 & S2 & S3 & S4). exists v, pick, (PProduce iv), s'. split; [exact Hgv|]. split; [reflexivity|]. split; [exact Es|].
        destruct (Nat.eq_dec v u) as [->|D].
        -- left. rewrite S1, (nth_upd_same _ _ _ _ Hgv). split; [reflexivity|]. exists (EvEmitted u iv), (events s). split; [exact S2|].
           rewrite Hgv in Hu. injection Hu as <-. injection Hk as <- <-. left. reflexivity.
        -- right. exists g. rewrite S1, nth_upd_other by exact D. split; [exact Hu|]. split; [exact Hk|].
           unfold measure, slots_rank, own_rank, mutex_rank. rewrite S1, S3, S4, Em, Hsm, nth_upd_other, Hkv by exact D. fold h. rewrite Hm. lia.
    + (* the thread itself *)
      destruct (Thr u g Hu) as (k & p & Hku & Hpu & T1 & T2).
      destruct g; try discriminate; injection Hk as <- <-; cbn in T1.
      * subst k. destruct (registered id0 s) eqn:Rg.
        -- exists u, 0, (PEmit id0). eexists. split; [exact Hu|]. split; [reflexivity|]. split.
           { cbn [pstep]. rewrite Hu. cbn [prun]. rewrite Hsm, Rg. cbn [free]. unfold queue_call. pf. cbn [cstep]. rewrite Hku. cbn [begin]. reflexivity. }
           right. exists (PProduce id0). pf. rewrite (nth_upd_same _ _ _ _ Hu). split; [reflexivity|]. split; [reflexivity|].
           unfold measure, slots_rank, own_rank, mutex_rank. pf. cf. fold h. rewrite Hm, Hsm, Hu, (nth_upd_same _ _ _ _ Hu), (nth_upd_same _ _ _ _ Hku). lia.
        -- exists u, 0, (PEmit id0). eexists. split; [exact Hu|]. split; [reflexivity|]. split.
           { cbn [pstep]. rewrite Hu. cbn [prun]. rewrite Hsm, Rg. reflexivity. }
           left. pf. rewrite (nth_upd_same _ _ _ _ Hu). split; [reflexivity|]. eexists. eexists. split; [reflexivity|]. right. reflexivity.
      * exfalso. assert (X : slots_mutex s = Some u) by (apply K; eexists; exact Hu). congruence.
      * exists u, 0, (PSlot id0). destruct (registered id0 s) eqn:Rg; eexists; (split; [exact Hu|]); (split; [reflexivity|]).
        -- split; [cbn [pstep]; rewrite Hu; cbn [prun]; rewrite Hsm, Rg; reflexivity|].
           left. pf. rewrite (nth_upd_same _ _ _ _ Hu). split; [reflexivity|]. eexists. eexists. split; [reflexivity|]. right. reflexivity.
        -- split; [cbn [pstep]; rewrite Hu; cbn [prun]; rewrite Hsm, Rg; reflexivity|].
           left. pf. rewrite (nth_upd_same _ _ _ _ Hu). split; [reflexivity|]. eexists. eexists. split; [reflexivity|]. left. reflexivity.
Qed.

Lemma measure_bound s u : measure s u <= 11.
Proof.
  unfold measure, mutex_rank, slots_rank, own_rank.
  assert (A : match mutex (handler (queue s)) with Some v => match nth_error (threads (handler (queue s))) v with Some p => rank p | None => 0 end | None => 0 end <= 6)
    by (destruct (mutex _) as [v|]; [|lia]; destruct (nth_error _ v) as [[]|]; cbn; lia).
  assert (B : match slots_mutex s with Some v => match nth_error (stages (queue s)) v with Some (SPush _) => 2 | _ => 1 end | None => 0 end <= 2)
    by (destruct (slots_mutex s) as [v|]; [|lia]; destruct (nth_error _ v) as [[]|]; lia).
  assert (D : match nth_error (pstages s) u with Some (PEmit _) => 3 | Some (PSlot _) => 1 | _ => 0 end <= 3) by (destruct (nth_error _ u) as [[]|]; lia).
  lia.
Qed.

Lemma returns_lemma n m b id u : forall k s g, measure s u <= k -> preachable any_label (pinit n m) s -> nth_error (pstages s) u = Some g -> kind g = Some (b, id) ->
  exists ls s', psteps s ls = Some s' /\ length ls <= S k /\ only_operations s ls /\ nth_error (pstages s') u = Some PIdle /\ exists e evs, events s' = e :: evs /\ done b u id e.
Proof.
  induction k as [|k IH]; intros s g L R Hu Hk.
  - destruct (next_lemma _ _ _ _ _ _ _ R Hu Hk) as (v & pick & g0 & s' & Hg & Hi & E & [(D1 & D2)|(g' & _ & _ & D3)]); [|lia].
    exists [PRun v pick], s'. cbn [psteps]. rewrite E. split; [reflexivity|]. split; [reflexivity|]. split; [|split; [exact D1|exact D2]].
    exists v, pick, g0, s'. repeat (split; [first [assumption|reflexivity]|]). exact I.
  - destruct (next_lemma _ _ _ _ _ _ _ R Hu Hk) as (v & pick & g0 & s' & Hg & Hi & E & [(D1 & D2)|(g' & D1 & D2 & D3)]).
    + exists [PRun v pick], s'. cbn [psteps]. rewrite E. split; [reflexivity|]. split; [cbn; lia|]. split; [|split; [exact D1|exact D2]].
      exists v, pick, g0, s'. repeat (split; [first [assumption|reflexivity]|]). exact I.
    + destruct (IH s' g') as (ls & s'' & E' & L' & O & F); [lia|econstructor; [exact R|exact I|exact E]|exact D1|exact D2|].
      exists (PRun v pick :: ls), s''. cbn [psteps]. rewrite E. split; [exact E'|]. split; [cbn; lia|]. split; [|exact F].
      exists v, pick, g0, s'. repeat (split; [first [assumption|reflexivity]|]). exact O.
Qed.

Lemma emit_returns_lemma : forall n m s u id, preachable any_label (pinit n m) s ->
  nth_error (pstages s) u = Some (PEmit id) \/ nth_error (pstages s) u = Some (PProduce id) ->
  exists ls s', psteps s ls = Some s' /\ length ls <= 12 /\ only_operations s ls /\ nth_error (pstages s') u = Some PIdle /\
  exists evs, events s' = EvEmitted u id :: evs \/ events s' = EvEmitRefused u id :: evs.
Proof.
  intros n m s u id R H. assert (G : exists g, nth_error (pstages s) u = Some g /\ kind g = Some (true, id)) by (destruct H as [H|H]; eexists; (split; [exact H|reflexivity])).
  destruct G as (g & Hg & Hk). destruct (returns_lemma n m true id u 11 s g (measure_bound s u) R Hg Hk) as (ls & s' & E & L & O & F & e & evs & He & D).
  exists ls, s'. split; [exact E|]. split; [exact L|]. split; [exact O|]. split; [exact F|]. exists evs. destruct D as [-> | ->]; auto.
Qed.

Lemma slot_returns_lemma : forall n m s u id, preachable any_label (pinit n m) s -> nth_error (pstages s) u = Some (PSlot id) ->
  exists ls s', psteps s ls = Some s' /\ length ls <= 12 /\ only_operations s ls /\ nth_error (pstages s') u = Some PIdle /\
  exists evs, events s' = EvSlotted u id :: evs \/ events s' = EvSlotRefused u id :: evs.
Proof.
  intros n m s u id R H. destruct (returns_lemma n m false id u 11 s _ (measure_bound s u) R H eq_refl) as (ls & s' & E & L & O & F & e & evs & He & D).
  exists ls, s'. split; [exact E|]. split; [exact L|]. split; [exact O|]. split; [exact F|]. exists evs. destruct D as [-> | ->]; auto.
Qed.

(** steps of threads inside operations are allowed to the tasks *)
Lemma operations_rules home : forall ls s s', only_operations s ls -> psteps s ls = Some s' -> texec home all_allowed s s'.
Proof.
  assert (T : forall a b c, texec home all_allowed a b -> texec home all_allowed b c -> texec home all_allowed a c).
  { intros a b c H1 H2. induction H2 as [|x l y _ IH A E B]; [exact H1|econstructor; eassumption]. }
  induction ls as [|l ls IH]; intros s s' O E; cbn [psteps] in E; [injection E as <-; constructor|].
  destruct O as (t & pick & g & s1 & -> & Hg & Hi & E1 & O). rewrite E1 in E. apply T with s1; [|exact (IH _ _ O E)].
  econstructor; [constructor| |exact E1|exact I]. intros (id & Hid) u _. rewrite Hg in Hid. injection Hid as ->. discriminate.
Qed.

(** ** A task that disables its pool *)
Lemma by_body s l s' t id : pstep s l = Some s' -> by_thread l t -> nth_error (pstages s) t = Some (PBody id) -> (exists pick, l = PRun t pick) \/ (exists d, l = PThrow t d).
Proof. intros E [(c & ->)|B] H; [|exact B]. cbn [pstep] in E. rewrite H in E. discriminate. Qed.

Lemma body_waits home s l s' t u id g : task_rules home s l -> pstep s l = Some s' -> by_thread l t -> nth_error (pstages s) t = Some (PBody id) ->
  home u = Some t -> nth_error (pstages s) u = Some g -> g = PIdle.
Proof.
  intros A E B Ht Hh Hu. assert (X : nth_error (pstages s) u = Some PIdle); [|congruence].
  destruct (by_body _ _ _ _ _ E B Ht) as [(pick & ->)|(d & ->)]; exact (A (ex_intro _ id Ht) u Hh).
Qed.

Lemma disable_stuck_lemma : forall home allowed s u t us id, home u = Some t -> nth_error (pstages s) u = Some (PJoin us) -> In t us ->
  nth_error (pstages s) t = Some (PBody id) -> forall s', texec home allowed s s' ->
  (exists us', nth_error (pstages s') u = Some (PJoin us') /\ In t us') /\ nth_error (pstages s') t = Some (PBody id).
Proof.
  intros home allowed s u t us id Hh Hu Hin Ht s' X. induction X as [|s1 l s2 X [(us1 & Hu1 & Hin1) Ht1] A E _]; [split; [exists us; split; assumption|exact Ht]|].
  destruct (pstep_shape _ _ _ E) as [(H1 & _)|[(x & g & g' & evs & B & Hg & Hs & _ & Hop)|(x & y & k & B & Hx & Hy & Hs & _)]].
  - rewrite H1. split; [exists us1; split; assumption|exact Ht1].
  - destruct (Nat.eq_dec x t) as [->|Dt]; [pose proof (body_waits _ _ _ _ _ _ _ _ A E B Ht1 Hh Hu1); discriminate|].
    rewrite Hs. split; [|rewrite nth_upd_other by exact Dt; exact Ht1].
    destruct (Nat.eq_dec x u) as [->|Du]; [|exists us1; rewrite nth_upd_other by exact Du; split; assumption].
    rewrite Hu1 in Hg. injection Hg as <-. remember (PJoin us1) as j eqn:Ej. destruct Hop; try discriminate.
    + destruct H as [-> | ->]; discriminate.
    + destruct H as [-> | ->]; [discriminate|]. injection Ej as <-. destruct Hin1.
    + injection Ej as <-. exists us0. rewrite (nth_upd_same _ _ _ _ Hu1). split; [reflexivity|]. destruct Hin1 as [-> |Hin1]; [congruence|exact Hin1].
  - rewrite Hs. split; [exists us1; split; [|exact Hin1]|]; rewrite !nth_upd_other by congruence; assumption.
Qed.

(** the task 1 of thread 2, the only one of the pool, calls the pool as the client 1 *)
Definition one_rule (s : pstate) (l : plabel) : bool :=
  let body := match nth_error (pstages s) 2 with Some (PBody _) => true | _ => false end in
  let idle := match nth_error (pstages s) 1 with Some PIdle => true | _ => false end in
  match l with
  | PCall u _ => negb (u =? 1) || body
  | PRun t _ | PThrow t _ => negb (t =? 2) || negb body || idle
  | _ => true
  end.
Lemma one_rule_ok s l : one_rule s l = true -> task_rules one_home s l.
Proof.
  unfold one_rule, task_rules, one_home, in_task. intros H.
  assert (G : forall t, (negb (t =? 2) || negb match nth_error (pstages s) 2 with Some (PBody _) => true | _ => false end || match nth_error (pstages s) 1 with Some PIdle => true | _ => false end)%bool = true ->
    (exists id, nth_error (pstages s) t = Some (PBody id)) -> forall u, (if u =? 1 then Some 2 else None) = Some t -> nth_error (pstages s) u = Some PIdle).
  { clear. intros t H (id & Ht) u Hu. destruct (u =? 1) eqn:Eu; [|discriminate]. apply Nat.eqb_eq in Eu. subst u. injection Hu as <-. rewrite Ht in H. cbn [Nat.eqb negb orb] in H.
    destruct (nth_error (pstages s) 1) as [[]|]; try discriminate. reflexivity. }
  destruct l as [u c|t pick|t| |t|t d]; try exact I; try (exact (G t H)).
  intros t Hu. destruct (u =? 1) eqn:Eu; [|discriminate]. apply Nat.eqb_eq in Eu. subst u. injection Hu as <-. cbn [Nat.eqb negb orb] in H.
  destruct (nth_error (pstages s) 2) as [[]|]; try discriminate. eexists. reflexivity.
Qed.

Fixpoint one_steps (s : pstate) (ls : list plabel) : option pstate :=
  match ls with
  | [] => Some s
  | l :: ls' => if one_rule s l then match pstep s l with Some s' => if (N.of_nat (in_queue (queue s')) <? 2 ^ 32)%N then one_steps s' ls' else None | None => None end else None
  end.
Lemma one_steps_texec ls : forall s0 s s', texec one_home all_allowed s0 s -> one_steps s ls = Some s' -> texec one_home all_allowed s0 s'.
Proof.
  induction ls as [|l ls IH]; intros s0 s s' R E; cbn [one_steps] in E; [injection E as <-; exact R|].
  destruct (one_rule s l) eqn:O; [|discriminate]. destruct (pstep s l) as [s1|] eqn:E1; [|discriminate]. destruct (_ <? _)%N; [|discriminate].
  apply (IH s0 s1); [|exact E]. econstructor; [exact R|exact (one_rule_ok _ _ O)|exact E1|exact I].
Qed.
Lemma one_steps_bounded n m ls : forall s s', pbounded (pinit n m) s -> one_steps s ls = Some s' -> pbounded (pinit n m) s'.
Proof.
  induction ls as [|l ls IH]; intros s s' R E; cbn [one_steps] in E; [injection E as <-; exact R|].
  destruct (one_rule s l); [|discriminate]. destruct (pstep s l) as [s1|] eqn:E1; [|discriminate]. destruct (N.ltb_spec (N.of_nat (in_queue (queue s1))) (2 ^ 32)) as [L|]; [|discriminate].
  apply (IH s1); [|exact E]. econstructor; eassumption.
Qed.

(** the tasks 1 and 2 are registered and emitted, the thread 2 of the pool starts the task 1 *)
Definition first_task : list plabel :=
  [PCall 0 (Slot 1); PRun 0 0; PCall 0 (Slot 2); PRun 0 0; PCall 0 Enable; PRun 0 1; PRun 0 2; PRun 0 0; PCall 0 (Emit 1)] ++ runs 0 3 ++ [PCall 0 (Emit 2)] ++ runs 0 3 ++ runs 2 14.

Lemma disable_refute : exists s, texec one_home all_allowed (pinit 2 1) s /\ events s = [EvStart 2 1; EvEmitted 0 2; EvEmitted 0 1; EvEnabled 0; EvSlotted 0 2; EvSlotted 0 1] /\
  nth_error (pstages s) 2 = Some (PBody 1) /\ nth_error (pstages s) 1 = Some (PJoin [2]) /\
  forall s', texec one_home all_allowed s s' -> nth_error (pstages s') 2 = Some (PBody 1) /\ nth_error (pstages s') 1 <> Some PIdle.
Proof.
  destruct (one_steps (pinit 2 1) (first_task ++ [PCall 1 Disable] ++ runs 1 5)) as [s|] eqn:E; [|vm_compute in E; discriminate].
  exists s. split; [exact (one_steps_texec _ _ _ _ (texec_init _ _ _) E)|]. vm_compute in E. injection E as <-.
  split; [reflexivity|]. split; [reflexivity|]. split; [reflexivity|]. intros s' X.
  pose proof (fun A B C D => disable_stuck_lemma one_home all_allowed _ 1 2 [2] 1 A B C D s' X) as G.
  destruct (G eq_refl eq_refl (or_introl eq_refl) eq_refl) as [(us & H1 & _) H2].
  split; [exact H2|]. rewrite H1. discriminate.
Qed.

(** ** A task that waits for all tasks *)

(** a wait for no task left, without timeout, that has not ended *)
Definition stuck_pc (p : pc N) : Prop := exists w, w_timeout w = 0 /\ w_pred w = c_reached 0 /\ w_take w = false /\
  (p = WLock w \/ p = WCheck w \/ p = WTest w None \/ p = WSleep w None \/ p = WWoken w None false).
(** the threads that the counter has as long as nobody consumes or disables *)
Definition calm_pc (p : pc N) : Prop := p = Idle \/ p = ILock \/ exists w, wait_of N p = Some w /\ w_take w = false.
Definition calm_stage (t : nat) (g : pstage) : Prop :=
  match g with PUnborn | PDisable | PQueueOff | PJoin _ | PLoop | PConsume | PTask _ => False | PBody _ => t = 2 | _ => True end.

Record Calm (h : state N) : Prop := {
  cm_enabled : enabled h = true;
  cm_value : (0 < value h)%N;
  cm_pc : forall t p, nth_error (threads h) t = Some p -> calm_pc p;
  cm_stuck : exists p, nth_error (threads h) 1 = Some p /\ stuck_pc p }.

Lemma woken_calm p q : woken N p q -> calm_pc p -> calm_pc q.
Proof.
  intros W [-> |[-> |(w & H1 & H2)]].
  - apply woken_awake in W; [|discriminate]. left. exact W.
  - apply woken_awake in W; [|discriminate]. right. left. exact W.
  - right. right. exists w. rewrite (woken_wait _ _ _ W). split; assumption.
Qed.

Lemma woken_stuck p q : woken N p q -> stuck_pc p -> stuck_pc q.
Proof.
  intros W (w & H1 & H2 & H3 & H4). exists w. split; [exact H1|]. split; [exact H2|]. split; [exact H3|].
  destruct W as [-> |(c & Hs & ->)]; [exact H4|]. destruct H4 as [-> |[-> |[-> |[-> | ->]]]]; try discriminate. cbn in *. rewrite Hs. right. right. right. right. reflexivity.
Qed.

Definition calm_op (l : label N) : Prop := match l with Call _ Increment | Call _ (WaitThreshold _) => True | Call _ _ => False | _ => True end.

Lemma calm_enabled t p pick (h h' : state N) : calm_pc p -> run (c_above 0) (c_reached 0) c_incr c_decr t p pick h = Some h' -> enabled h' = enabled h.
Proof.
  intros C E. assert (One : forall s1 s2 : state N, notify_one Main pick s1 = Some s2 -> enabled s2 = enabled s1) by (intros s1 s2 H; apply notify_one_fields in H as (_ & H & _); exact H).
  assert (P : match p with Idle | ILock => True | _ => exists w, wait_of N p = Some w end) by (destruct C as [-> |[-> |(w & H & _)]]; try exact I; destruct p; try exact I; exists w; exact H).
  destruct p; try (destruct P as (w0 & P); discriminate); cbn [run] in E; try discriminate;
    repeat match goal with H0 : (if free ?m then _ else None) = Some _ |- _ => destruct (free m); [|discriminate] end; cbv zeta in E; try (injection E as <-; reflexivity).
  - destruct (negb (enabled h)); injection E as <-; reflexivity.
  - destruct (condition w h); injection E as <-; reflexivity.
  - destruct (if negb (enabled h) then Disabled else if finished then ConditionMet else Timeout); try (injection E as <-; reflexivity).
    destruct (w_take w); [|injection E as <-; reflexivity]. unfold decrease in E. set (s1 := set_val _ _) in E. destruct (c_above 0 (value s1)); [rewrite (One _ _ E); reflexivity|].
    destruct (c_reached 0 (value s1)); injection E as <-; reflexivity.
  - set (s1 := set_pc t Idle _) in E. destruct (c_above 0 (value s1)); [rewrite (One _ _ E); reflexivity|]. injection E as <-; reflexivity.
Qed.

Lemma calm_step v en n h l h' : hreach v en n h -> Calm h -> calm_op l -> (forall t pick, l = Run t pick -> nth_error (threads h) t = Some ILock -> (value h + 1 < 2 ^ 32)%N) ->
  hstep h l = Some h' -> Calm h'.
Proof.
  intros R [Ce Cv Cp (p1 & Hp1 & Hst)] O B E.
  assert (Set1 : forall t p p', nth_error (threads h) t = Some p -> calm_pc p' -> (t = 1 -> stuck_pc p') -> Calm (set_pc t p' h)).
  { intros t p p' Ht Hc Hs. constructor; [exact Ce|exact Cv| |]; cbn [threads set_pc].
    - intros x y Hx. apply nth_upd in Hx as [[_ ->]|[_ Hx]]; [exact Hc|exact (Cp x y Hx)].
    - destruct (Nat.eq_dec t 1) as [->|D]; [exists p'; rewrite (nth_upd_same _ _ _ _ Ht); split; [reflexivity|exact (Hs eq_refl)]|exists p1; rewrite nth_upd_other by exact D; split; assumption]. }
  destruct l as [t o|t pick|t|t|].
  - unfold hstep, c_step in E. cbn [step] in E. destruct (nth_error (threads h) t) as [p|] eqn:Hp; [|discriminate]. destruct p; try discriminate. injection E as <-.
    eapply Set1; [exact Hp| |].
    + destruct o; try contradiction; [|right; left; reflexivity]. right. right. eexists. split; reflexivity.
    + intros ->. rewrite Hp1 in Hp. injection Hp as ->. destruct Hst as (w & _ & _ & _ & [X|[X|[X|[X|X]]]]); discriminate.
  - destruct (hrun _ _ _ _ _ _ _ R E) as (_ & p & p' & Hp & Hn & Hp' & M1 & M2 & M3 & M4). unfold hstep, c_step in E. cbn [step] in E. rewrite Hp in E.
    pose proof (Cp t p Hp) as Cpt.
    assert (Cp' : calm_pc p').
    { destruct M1 as [M1|M1]; [|left; exact M1]. destruct Cpt as [-> |[-> |(w & H1 & H2)]]; [discriminate|left; exact (proj1 M4)|]. right. right. exists w. rewrite M1. split; assumption. }
    constructor.
    + rewrite (calm_enabled _ _ _ _ _ Cpt E). exact Ce.
    + destruct p; try (rewrite (proj1 M4); exact Cv).
      * destruct M4 as [(_ & Tk & _)|(-> & _)]; [|exact Cv]. destruct Cpt as [X|[X|(w' & X & Tk')]]; try discriminate. injection X as <-. congruence.
      * destruct M4 as (_ & -> & _). exact Cv.
      * destruct M4 as (_ & ->). specialize (B t pick eq_refl Hp). unfold c_incr. rewrite N.mod_small by exact B. lia.
    + intros x y Hx. destruct Hn as (_ & _ & Hn & _). destruct (Hn x y Hx) as (z & Hz & W). apply (woken_calm _ _ W).
      apply nth_upd in Hz as [[_ ->]|[_ Hz]]; [exact Cp'|exact (Cp x z Hz)].
    + destruct (Nat.eq_dec t 1) as [->|D].
      * exists p'. split; [exact Hp'|]. rewrite Hp1 in Hp. injection Hp as <-. destruct Hst as (w & W1 & W2 & W3 & W4). exists w. split; [exact W1|]. split; [exact W2|]. split; [exact W3|].
        assert (U : forall q h1, threads h1 = threads h -> h' = set_pc 1 q h1 -> p' = q) by (intros q h1 H1 ->; cbn [threads set_pc] in Hp'; rewrite H1, (nth_upd_same _ _ _ _ Hp1) in Hp'; congruence).
        destruct W4 as [-> |[-> |[-> |[-> | ->]]]]; cbn [run] in E; try discriminate.
        -- destruct (free (mutex h)); [|discriminate]. injection E as E. right. left. eapply U; [|symmetry; exact E]. reflexivity.
        -- rewrite Ce, W1 in E. injection E as E. right. right. left. eapply U; [|symmetry; exact E]. reflexivity.
        -- assert (Cn : condition w h = false) by (unfold condition; rewrite Ce, W2; unfold c_reached; cbn; lia). rewrite Cn in E. injection E as E. right. right. right. left. eapply U; [|symmetry; exact E]. reflexivity.
        -- destruct (free (mutex h)); [|discriminate]. injection E as E. right. right. left. eapply U; [|symmetry; exact E]. reflexivity.
      * destruct Hn as (_ & _ & _ & Hn). destruct (Hn 1 p1) as (q & Hq & W); [rewrite nth_upd_other by exact D; exact Hp1|]. exists q. split; [exact Hq|exact (woken_stuck _ _ W Hst)].
  - unfold hstep, c_step in E. cbn [step] in E. destruct (nth_error (threads h) t) as [p|] eqn:Hp; [|discriminate]. destruct p; try discriminate. injection E as <-.
    pose proof (Cp t _ Hp) as Cpt. eapply Set1; [exact Hp| |].
    + destruct Cpt as [X|[X|(w' & X & Y)]]; try discriminate. right. right. exists w'. split; [exact X|exact Y].
    + intros ->. rewrite Hp1 in Hp. injection Hp as ->. destruct Hst as (w' & W1 & W2 & W3 & [X|[X|[X|[X|X]]]]); try discriminate. injection X as <- ->.
      exists w. split; [exact W1|]. split; [exact W2|]. split; [exact W3|]. right. right. right. right. reflexivity.
  - unfold hstep, c_step in E. cbn [step] in E. destruct (nth_error (threads h) t) as [p|] eqn:Hp; [|discriminate]. destruct p; try discriminate. destruct dl as [d|]; [|discriminate].
    destruct (d <=? now h); [|discriminate]. injection E as <-. pose proof (Cp t _ Hp) as Cpt. eapply Set1; [exact Hp| |].
    + destruct Cpt as [X|[X|(w' & X & Y)]]; try discriminate. right. right. exists w'. split; [exact X|exact Y].
    + intros ->. rewrite Hp1 in Hp. injection Hp as ->. destruct Hst as (w' & W1 & W2 & W3 & [X|[X|[X|[X|X]]]]); discriminate.
  - injection E as <-. constructor; try assumption. exists p1. split; assumption.
Qed.

Definition calm_label (l : clabel nat) : Prop := match l with CCall _ (Produce _) | CCall _ (WaitAllConsumed _) => True | CCall _ _ => False | _ => True end.

Lemma calm_queue s l s' : (forall t g, nth_error (pstages s) t = Some g -> calm_stage t g) -> pstep s l = Some s' ->
  queue s' = queue s \/ exists ql, calm_label ql /\ cstep (queue s) ql = Some (queue s').
Proof.
  intros Cs E.
  assert (C : forall t c g s1, queue s1 = queue s -> calm_label (CCall t c) -> queue_call t c g s1 = Some s' -> queue s' = queue s \/ exists ql, calm_label ql /\ cstep (queue s) ql = Some (queue s')).
  { intros t c g s1 H1 H2 E1. unfold queue_call in E1. rewrite H1 in E1. destruct (cstep (queue s) (CCall t c)) as [q|] eqn:Eq; [|discriminate]. injection E1 as <-.
    right. exists (CCall t c). split; [exact H2|exact Eq]. }
  assert (Q : forall t pick g, in_queue_step t pick g s = Some s' -> queue s' = queue s \/ exists ql, calm_label ql /\ cstep (queue s) ql = Some (queue s')).
  { intros t pick g E1. unfold in_queue_step in E1. destruct (nth_error (stages (queue s)) t) as [k|]; [|discriminate]. fold (own k t pick) in E1.
    destruct (cstep (queue s) (own k t pick)) as [q|] eqn:Eq; [|discriminate]. right. exists (own k t pick). split; [destruct k; exact I|].
    rewrite Eq. destruct (nth_error (stages q) t) as [[]|]; injection E1 as <-; rewrite ?returned_queue; reflexivity. }
  destruct l as [t c|t pick|t| |t|t d]; cbn [pstep] in E.
  - destruct (nth_error (pstages s) t) as [g|] eqn:Hg; [|discriminate]. destruct g; try discriminate. destruct c; cbn [pstart] in E; try (injection E as <-; left; reflexivity).
    eapply C; [reflexivity| |exact E]. exact I.
  - destruct (nth_error (pstages s) t) as [g|] eqn:Hg; [|discriminate]. pose proof (Cs t g Hg) as Ct.
    destruct g as [| |id|id|id| |k| | |us| | | |id|id|]; cbn [prun] in E; cbn [calm_stage] in Ct; try contradiction; try discriminate; try (exact (Q _ _ _ E)).
    + destruct (free (slots_mutex s)); [|discriminate]. destruct (registered id s); [|injection E as <-; left; reflexivity]. eapply C; [| |exact E]; [reflexivity|exact I].
    + destruct (free (slots_mutex s)); [|discriminate]. destruct (registered id s); injection E as <-; left; reflexivity.
    + destruct (pool_enabled s); injection E as <-; left; reflexivity.
    + destruct k; [injection E as <-; left; reflexivity|]. destruct (nth_error (pstages s) pick) as [[]|]; try discriminate. injection E as <-. left. reflexivity.
    + injection E as <-. left. reflexivity.
  - destruct (cstep (queue s) (CSpurious t)) as [q|] eqn:Eq; [|discriminate]. injection E as <-. right. exists (CSpurious t). split; [exact I|exact Eq].
  - destruct (cstep (queue s) CTick) as [q|] eqn:Eq; [|discriminate]. injection E as <-. right. exists CTick. split; [exact I|exact Eq].
  - destruct (cstep (queue s) (CExpire t)) as [q|] eqn:Eq; [|discriminate]. injection E as <-. right. exists (CExpire t). split; [exact I|exact Eq].
  - destruct (nth_error (pstages s) t) as [[]|]; try discriminate. injection E as <-. left. reflexivity.
Qed.

Lemma calm_handler (q q' : cstate nat) l : calm_label l -> cstep q l = Some q' -> handler q' = handler q \/ exists hl, calm_op hl /\ hstep (handler q) hl = Some (handler q').
Proof.
  intros A E. destruct l as [t c|t|t pick|t|t|]; cbn [cstep] in E.
  - destruct (nth_error (stages q) t) as [[]|]; try discriminate. destruct c; try contradiction; cbn [begin] in E.
    + injection E as <-. left. reflexivity.
    + destruct (hstep (handler q) _) as [h|] eqn:Eh; [|discriminate]. injection E as <-. right. eexists. split; [|exact Eh]. exact I.
  - destruct (nth_error (stages q) t) as [k|]; [|discriminate]. destruct k; cbn [queue_step] in E; try discriminate.
    + destruct (hstep (handler q) _) as [h|] eqn:Eh; [|discriminate]. injection E as <-. right. eexists. split; [|exact Eh]. exact I.
    + destruct (free (pop_mutex q)); [|discriminate]. injection E as <-. left. reflexivity.
    + injection E as <-. left. reflexivity.
    + injection E as <-. left. reflexivity.
    + destruct (foreground q); injection E as <-; left; reflexivity.
    + destruct (foreground q); injection E as <-; left; reflexivity.
    + destruct (foreground q); injection E as <-; left; reflexivity.
  - destruct (nth_error (stages q) t) as [k|]; [|discriminate]. destruct (hstep (handler q) (Run t pick)) as [h|] eqn:Eh; [|discriminate]. right. exists (Run t pick). split; [exact I|].
    rewrite Eh. f_equal. destruct (nth_error (threads h) t) as [[]|]; injection E as <-; try reflexivity. destruct k; try reflexivity. unfold returned.
    destruct (log (handler (set_handler h q))) as [|[? ? []|? ?|? ?] ?]; reflexivity.
  - destruct (hstep (handler q) (Spurious t)) as [h|] eqn:Eh; [|discriminate]. injection E as <-. right. exists (Spurious t). split; [exact I|exact Eh].
  - destruct (hstep (handler q) (Expire t)) as [h|] eqn:Eh; [|discriminate]. injection E as <-. right. exists (Expire t). split; [exact I|exact Eh].
  - destruct (hstep (handler q) Tick) as [h|] eqn:Eh; [|discriminate]. injection E as <-. right. exists Tick. split; [exact I|exact Eh].
Qed.

Record Waiting (s : pstate) : Prop := {
  wt_bounded : pbounded (pinit 2 1) s;
  wt_calm : Calm (handler (queue s));
  wt_stage : forall t g, nth_error (pstages s) t = Some g -> calm_stage t g;
  wt_body : nth_error (pstages s) 2 = Some (PBody 1);
  wt_wait : nth_error (pstages s) 1 = Some PWaitTasks;
  wt_started : started s = [1] }.

Lemma waiting_step s l s' : Waiting s -> task_rules one_home s l -> pstep s l = Some s' -> kept_enabled l s' -> Waiting s'.
Proof.
  intros [Wb Wc Ws W2 W1 Wst] A E [Nd Bd].
  assert (Wb' : pbounded (pinit 2 1) s') by (econstructor; eassumption).
  destruct (pbounded_inv _ _ _ Wb) as [P0 B0]. destruct (bounded_bal _ _ _ _ B0) as (C & Bl & Lt).
  assert (Wc' : Calm (handler (queue s'))).
  { destruct (calm_queue _ _ _ Ws E) as [-> |(ql & Aq & Eq)]; [exact Wc|]. destruct (calm_handler _ _ _ Aq Eq) as [-> |(hl & Ah & Eh)]; [exact Wc|].
    eapply calm_step; [exact (ci_handler _ _ _ _ _ C)|exact Wc|exact Ah| |exact Eh]. intros t pick _ Ht.
    pose proof (ba_sum _ _ _ Bl) as Sum. unfold debt in Sum. pose proof (count_pos incrementing _ _ _ Ht eq_refl). lia. }
  pose proof (preachable_pinv _ _ _ _ (proj1 (pbounded_inv _ _ _ Wb'))) as P'. pose proof (creachable_cinv _ _ _ _ _ (pi_queue _ _ _ P')) as C'.
  assert (Not : nth_error (pstages s') 1 <> Some PIdle).
  { intros X. destruct (cm_stuck _ Wc') as (p & Hp & w & _ & _ & _ & Hw). destruct (same_length _ _ _ _ (pi_length _ _ _ P') X) as (k & Hk).
    pose proof (pi_tie _ _ _ P' _ _ _ X Hk) as T. cbn in T. subst k. pose proof (ci_tie _ _ _ _ _ C' _ _ _ Hk Hp) as T. cbn in T. subst p.
    destruct Hw as [Y|[Y|[Y|[Y|Y]]]]; discriminate. }
  destruct (pstep_shape _ _ _ E) as [(H1 & H2 & _)|[(x & g & g' & evs & B & Hg & Hs & He & Hop)|(x & y & k & B & Hx & Hy & _)]].
  - constructor; rewrite ?H1; try assumption. rewrite (started_same _ _ H2). exact Wst.
  - assert (D2 : x <> 2) by (intros ->; pose proof (body_waits _ _ _ _ _ 1 _ _ A E B W2 eq_refl W1); discriminate).
    assert (D1 : x <> 1).
    { intros ->. rewrite W1 in Hg. injection Hg as <-. apply Not. rewrite Hs, (nth_upd_same _ _ _ _ W1). remember PWaitTasks as j eqn:Ej. destruct Hop; try discriminate; [| |reflexivity]; destruct H as [-> | ->]; discriminate. }
    pose proof (Ws x g Hg) as Cx.
    assert (Dis : g' <> PDisable).
    { intros ->. assert (g = PIdle) as -> by (remember PDisable as j eqn:Ej; destruct Hop; try discriminate; reflexivity).
      destruct B as [(c & ->)|[(pick & ->)|(d & ->)]]; cbn [pstep] in E; rewrite Hg in E; try discriminate. destruct c; try contradiction; cbn [pstart] in E;
      try (injection E as <-; cbn [pstages set_pstage] in Hs; apply (f_equal (fun l => nth_error l x)) in Hs; rewrite !(nth_upd_same _ _ _ _ Hg) in Hs; discriminate).
      unfold queue_call in E. destruct (cstep _ _) as [q|]; [|discriminate]. injection E as <-. cbn [pstages set_pstage set_queue] in Hs. apply (f_equal (fun l => nth_error l x)) in Hs; rewrite !(nth_upd_same _ _ _ _ Hg) in Hs; discriminate. }
    constructor; try assumption; rewrite ?Hs.
    + intros t h Ht. apply nth_upd in Ht as [[-> ->]|[_ Ht]]; [|exact (Ws t h Ht)].
      destruct Hop; cbn [calm_stage] in *; try contradiction; try exact I. destruct g; try contradiction; try exact I.
    + rewrite nth_upd_other by exact D2. exact W2.
    + rewrite nth_upd_other by exact D1. exact W1.
    + assert (Z : flat_map (fun e => match e with EvStart _ id => [id] | _ => [] end) (rev evs) = []).
      { destruct Hop; try reflexivity; try contradiction.
        - destruct H as [-> | ->]; reflexivity.
        - destruct H as [-> |(r & ->)]; reflexivity. }
      unfold started in *. rewrite He, rev_app_distr, flat_map_app, Z, app_nil_r. exact Wst.
  - destruct (Ws y _ Hy).
Qed.

Lemma wait_refute : exists s, texec one_home all_allowed (pinit 2 1) s /\ events s = [EvStart 2 1; EvEmitted 0 2; EvEmitted 0 1; EvEnabled 0; EvSlotted 0 2; EvSlotted 0 1] /\
  pool_enabled s = true /\ nth_error (pstages s) 1 = Some PWaitTasks /\
  forall s', texec one_home kept_enabled s s' -> nth_error (pstages s') 1 = Some PWaitTasks /\ nth_error (pstages s') 2 = Some (PBody 1) /\ started s' = [1].
Proof.
  destruct (one_steps (pinit 2 1) (first_task ++ [PCall 1 (WaitTasks 0)])) as [s|] eqn:E; [|vm_compute in E; discriminate].
  exists s. split; [exact (one_steps_texec _ _ _ _ (texec_init _ _ _) E)|].
  assert (W : Waiting s).
  { constructor; [exact (one_steps_bounded _ _ _ _ _ (pbounded_init _) E)| | | | |]; vm_compute in E; injection E as <-; try reflexivity.
    - constructor; try reflexivity.
      + intros [|[|[|[|t]]]] p Hp; cbn in Hp; try (injection Hp as <-; left; reflexivity); try discriminate. injection Hp as <-. right. right. eexists. split; reflexivity.
      + eexists. split; [reflexivity|]. eexists. split; [|split; [|split; [|left; reflexivity]]]; reflexivity.
    - intros [|[|[|[|t]]]] g Hg; cbn in Hg; try discriminate; injection Hg as <-; try exact I. reflexivity. }
  vm_compute in E. injection E as E. split; [rewrite <- E; reflexivity|]. split; [rewrite <- E; reflexivity|]. split; [rewrite <- E; reflexivity|].
  intros s' X. assert (W' : Waiting s'). { clear E. induction X as [|s1 l s2 _ IH A E1 K]; [exact W|exact (waiting_step _ _ _ IH A E1 K)]. }
  split; [exact (wt_wait _ W')|]. split; [exact (wt_body _ W')|exact (wt_started _ W')].
Qed.

(** ** A task that throws *)
Lemma enabled_kept s l s' : orphaned s -> pstep s l = Some s' ->
  pool_enabled s' = true /\ forall t k, nth_error (pstages s) t = Some PEnable -> nth_error (pstages s') t <> Some (PSpawn k).
Proof.
  intros [En W] E.
  assert (Same : pstages s' = pstages s -> forall t k, nth_error (pstages s) t = Some PEnable -> nth_error (pstages s') t <> Some (PSpawn k)) by (intros -> t k ->; discriminate).
  assert (Upd : forall x g, pstages s' = upd (pstages s) x g -> (forall k, g <> PSpawn k) -> forall t k, nth_error (pstages s) t = Some PEnable -> nth_error (pstages s') t <> Some (PSpawn k)).
  { intros x g -> Hg t k Ht X. apply nth_upd in X as [[_ X]|[_ X]]; [exact (Hg k (eq_sym X))|congruence]. }
  destruct l as [t c|t pick|t| |t|t d]; cbn [pstep] in E.
  - destruct (nth_error (pstages s) t) as [g|] eqn:Hg; [|discriminate]. destruct g; try discriminate. destruct c; cbn [pstart] in E; unfold queue_call in E;
      try (destruct (cstep _ _) as [q|]; [|discriminate]); injection E as <-; (split; [exact En|]); (eapply Upd; [reflexivity|discriminate]).
  - destruct (nth_error (pstages s) t) as [g|] eqn:Hg; [|discriminate]. destruct (W t g Hg) as [Wp Wg].
    assert (Q : in_queue_step t pick g s = Some s' -> match g with PProduce _ | PQueueOff | PWaitTasks => True | _ => False end ->
      pool_enabled s' = true /\ forall t k, nth_error (pstages s) t = Some PEnable -> nth_error (pstages s') t <> Some (PSpawn k)).
    { intros E1 Hk. unfold in_queue_step in E1. destruct (nth_error (stages (queue s)) t) as [k|]; [|discriminate].
      fold (own k t pick) in E1. destruct (cstep (queue s) (own k t pick)) as [q|]; [|discriminate].
      destruct (nth_error (stages q) t) as [[]|]; injection E1 as E1; try (rewrite <- E1; split; [exact En|]; rewrite <- E1 in Same; exact (Same eq_refl)).
      destruct g; try contradiction; cbn [queue_returned] in E1; try destruct (log _) as [|[u w r|u w|u w] ws]; rewrite <- E1 in *; (split; [exact En|]); (eapply Upd; [reflexivity|discriminate]). }
    destruct g as [| |id|id|id| |k| | |us| | | |id|id|]; cbn [prun] in E; try discriminate; try contradiction; try (exact (Q E I)).
    + destruct (free (slots_mutex s)); [|discriminate]. destruct (registered id s); [unfold queue_call in E; destruct (cstep _ _) as [q|]; [|discriminate]|]; injection E as <-; (split; [exact En|]); (eapply Upd; [reflexivity|discriminate]).
    + destruct (free (slots_mutex s)); [|discriminate]. destruct (registered id s); injection E as <-; (split; [exact En|]); (eapply Upd; [reflexivity|discriminate]).
    + rewrite En in E. injection E as <-. split; [exact En|]. eapply Upd; [reflexivity|discriminate].
    + destruct us as [|u us]; [injection E as <-; split; [exact En|]; eapply Upd; [reflexivity|discriminate]|].
      destruct (nth_error (pstages s) u) as [[]|]; try discriminate. injection E as <-. split; [exact En|]. eapply Upd; [reflexivity|discriminate].
  - destruct (cstep _ _) as [q|]; [|discriminate]. injection E as <-. split; [exact En|exact (Same eq_refl)].
  - destruct (cstep _ _) as [q|]; [|discriminate]. injection E as <-. split; [exact En|exact (Same eq_refl)].
  - destruct (cstep _ _) as [q|]; [|discriminate]. injection E as <-. split; [exact En|exact (Same eq_refl)].
  - destruct (nth_error (pstages s) t) as [g|] eqn:Hg; [|discriminate]. destruct g; try discriminate. destruct (W t _ Hg) as [X _]. discriminate.
Qed.

Lemma orphaned_step s l s' : orphaned s -> never_disabled l -> pstep s l = Some s' -> orphaned s' /\ started s' = started s.
Proof.
  intros O A E. destruct (enabled_kept _ _ _ O E) as [En' Sp]. destruct O as [En W].
  destruct (pstep_shape _ _ _ E) as [(H1 & H2 & _)|[(x & g & g' & evs & B & Hg & Hs & He & Hop)|(x & y & k & _ & Hx & _)]].
  - split; [split; [exact En'|rewrite H1; exact W]|exact (started_same _ _ H2)].
  - destruct (W x g Hg) as [Wx Wg]. split.
    + split; [exact En'|]. rewrite Hs. intros t h Ht. apply nth_upd in Ht as [[-> ->]|[_ Ht]]; [|exact (W t h Ht)].
      destruct Hop; try discriminate; try contradiction; try (split; [reflexivity|exact I]).
      * destruct g; try contradiction; try (split; [reflexivity|exact I]). exfalso. cbn [pstep] in E. destruct B as [(c & ->)|[(pick & ->)|(d & ->)]]; cbn [pstep] in E; rewrite Hg in E; try discriminate.
        destruct c; cbn [pstart] in E; unfold queue_call in E; try (destruct (cstep _ _) as [q|]; [|discriminate]); try contradiction; injection E as E; rewrite <- E in Hs; cbn in Hs;
          apply (f_equal (fun l => nth_error l x)) in Hs; rewrite !(nth_upd_same _ _ _ _ Hg) in Hs; discriminate.
      * exfalso. apply (Sp x k Hg). rewrite Hs. eapply nth_upd_same; exact Hg.
    + assert (Z : flat_map (fun e => match e with EvStart _ id => [id] | _ => [] end) (rev evs) = []).
      { destruct Hop; try reflexivity; try discriminate.
        - destruct H as [-> | ->]; reflexivity.
        - destruct H as [-> |(r & ->)]; reflexivity. }
      unfold started. rewrite He, rev_app_distr, flat_map_app, Z, app_nil_r. reflexivity.
  - destruct (W x _ Hx) as [_ X]. contradiction.
Qed.

Lemma orphaned_lemma : forall s, orphaned s -> forall ls s', Forall never_disabled ls -> psteps s ls = Some s' -> started s' = started s.
Proof.
  intros s O ls. revert s O. induction ls as [|l ls IH]; intros s O s' A E; cbn [psteps] in E; [injection E as <-; reflexivity|].
  inversion A as [|? ? A1 A2]; subst. destruct (pstep s l) as [s1|] eqn:E1; [|discriminate]. destruct (orphaned_step _ _ _ O A1 E1) as [O1 H1].
  rewrite (IH s1 O1 s' A2 E). exact H1.
Qed.

Lemma lost_refute : exists ls s, psteps (pinit 1 3) ls = Some s /\ pool_enabled s = true /\ ~ queue_off s /\
  events s = [EvEmitted 0 2; EvThrown 1 1 true; EvStart 1 1; EvEmitted 0 1; EvEnabled 0; EvSlotted 0 2; EvSlotted 0 1] /\
  forall ls' s', Forall never_disabled ls' -> psteps s ls' = Some s' -> started s' = [1].
Proof.
  exists ([PCall 0 (Slot 1); PRun 0 0; PCall 0 (Slot 2); PRun 0 0; PCall 0 Enable; PRun 0 1; PRun 0 1; PRun 0 0; PCall 0 (Emit 1)] ++ runs 0 3 ++ runs 1 14 ++ [PThrow 1 true; PCall 0 (Emit 2)] ++ runs 0 3).
  eexists. split; [vm_compute; reflexivity|]. split; [reflexivity|]. split; [discriminate|]. split; [reflexivity|].
  intros ls' s' A E. erewrite (orphaned_lemma _ _ _ _ A E). reflexivity. Unshelve.
  split; [reflexivity|]. intros [|[|[|[|[|t]]]]] g Hg; cbn in Hg; try discriminate; injection Hg as <-; (split; [reflexivity|exact I]).
Qed.

Lemma ended_off n m s t pick s' : preachable any_label (pinit n m) s -> nth_error (pstages s) t = Some PConsume -> in_queue_step t pick PConsume s = Some s' ->
  pstages s' = upd (pstages s) t PEnded -> (forall u, ~ In (EvUncaught u) (events s')) -> queue_off s.
Proof.
  intros R Hg E Hs Hu. destruct (preachable_qi _ _ _ _ R) as [P Q]. pose proof (creachable_cinv _ _ _ _ _ (pi_queue _ _ _ P)) as C.
  unfold in_queue_step in E. destruct (nth_error (stages (queue s)) t) as [k|] eqn:Hk; [|discriminate]. fold (own k t pick) in E.
  destruct (cstep (queue s) (own k t pick)) as [q|] eqn:Eq; [|discriminate].
  assert (Move : forall g, pstages s' = upd (pstages s) t g -> g = PEnded) by (intros g H; rewrite Hs in H; apply (f_equal (fun l => nth_error l t)) in H; rewrite !(nth_upd_same _ _ _ _ Hg) in H; congruence).
  destruct (own_effect _ _ _ _ _ Hk Eq) as (k' & Hst & _ & Hkk).
  assert (Hk' : nth_error (stages q) t = Some k') by (rewrite Hst; eapply nth_upd_same; exact Hk). rewrite Hk' in E.
  destruct k'; try (injection E as <-; exfalso; specialize (Move PConsume); cbn [pstages set_queue] in Move; rewrite upd_same in Move by exact Hg; specialize (Move eq_refl); discriminate).
  injection E as E. cbn [queue_returned queue set_queue] in E.
  assert (X : exists u rs, results q = RThrow u Disabled :: rs).
  { destruct (results q) as [|[u x|u r|u|u] rs]; [| |destruct r| |].
    - exfalso. apply (Hu t). rewrite <- E. left. reflexivity.
    - exfalso. specialize (Move (PTask x)). rewrite <- E in Move. discriminate (Move eq_refl).
    - eexists. eexists. reflexivity.
    - exfalso. apply (Hu t). rewrite <- E. left. reflexivity.
    - exfalso. apply (Hu t). rewrite <- E. left. reflexivity.
    - exfalso. apply (Hu t). rewrite <- E. left. reflexivity.
    - exfalso. apply (Hu t). rewrite <- E. left. reflexivity. }
  destruct X as (u & rs & Hr). pose proof (pi_tie _ _ _ P t _ k Hg Hk) as Ht. cbn in Ht. destruct Ht as [-> |Ht].
  - destruct Hkk as [[[Z|Z] _]|(_ & r & Hne & R1)]; try discriminate. cbn [own cstep] in Eq. rewrite Hk in Eq.
    destruct (hstep (handler (queue s)) (Run t pick)) as [h|] eqn:Eh; [|discriminate].
    destruct (hrun _ _ _ _ _ _ _ (ci_handler _ _ _ _ _ C) Eh) as (_ & p & p' & Hp & Hn & Hp' & M1 & M2 & M3 & M4). rewrite Hp' in Eq.
    assert (N : q <> set_handler h (queue s)) by (intros ->; cbn [stages set_handler] in Hk'; congruence).
    destruct p'; try (injection Eq as Eq; destruct (N (eq_sym Eq))). injection Eq as <-. cbn [returned log handler set_handler] in Hr.
    destruct (ci_tie _ _ _ _ _ C t _ p Hk Hp) as (w & Hw & Htk). destruct (M3 eq_refl) as [Z|(w' & r' & ->)]; [congruence|]. destruct M4 as (_ & _ & Hlog). rewrite Hlog in Hr.
    destruct (inv_ok _ _ _ (reachable_inv _ _ _ _ _ _ _ _ _ _ (ci_handler _ _ _ _ _ C)) t _ Hp) as (_ & _ & Hl).
    destruct r'; cbn [results report set_stage set_handler] in Hr; [exact Hl|discriminate|].
    cbn [returned log handler set_handler] in Hk'. rewrite Hlog in Hk'. cbn [stages set_stage set_handler] in Hk'. rewrite (nth_upd_same _ _ _ _ Hk) in Hk'. discriminate.
  - exfalso. assert (Y : (qpop SIdle = true /\ results q = results (queue s)) \/ (@SIdle nat = SIdle /\ exists r, (forall u r', r <> RThrow u r') /\ results q = r :: results (queue s))) by (destruct k; try discriminate; exact Hkk).
    destruct Y as [[Y _]|(_ & r & Hne & R1)]; [discriminate|]. rewrite R1 in Hr. injection Hr as -> _. exact (Hne _ _ eq_refl).
Qed.

Lemma losses_lemma : forall n m s, preachable any_label (pinit n m) s -> ~ queue_off s -> number ended s = length (thrown s).
Proof.
  intros n m s R. induction R as [|s l s' R IH A E]; intros On.
  { unfold number. change (length (filter ended (pstages (pinit n m)))) with (count ended (pstages (pinit n m))). cbn [pstages pinit]. rewrite count_app, !count_repeat' by reflexivity. reflexivity. }
  assert (R' : preachable any_label (pinit n m) s') by (econstructor; eassumption).
  destruct (preachable_qi _ _ _ _ R) as [P Q]. destruct (pstep_qi _ _ _ _ _ P Q E) as [_ Mono].
  assert (On0 : ~ queue_off s) by (intros X; exact (On (Mono X))). specialize (IH On0). unfold number in *. change (length (filter ended (pstages s))) with (count ended (pstages s)) in IH. change (length (filter ended (pstages s'))) with (count ended (pstages s')).
  destruct (pstep_shape _ _ _ E) as [(H1 & H2 & _)|[(x & g & g' & evs & B & Hg & Hs & He & Hop)|(x & y & k & _ & Hx & Hy & Hs & He & _)]].
  - unfold thrown in *. rewrite H1, H2. exact IH.
  - assert (U := count_upd ended _ _ g' _ Hg). assert (Th : thrown s' = thrown s ++ flat_map (fun e => match e with EvThrown _ id _ => [id] | _ => [] end) (rev evs)) by (unfold thrown; rewrite He, rev_app_distr, flat_map_app; reflexivity).
    rewrite Hs, Th, app_length.
    assert (Z : b2n (ended g') = b2n (ended g) + length (flat_map (fun e => match e with EvThrown _ id _ => [id] | _ => [] end) (rev evs))); [|lia].
    destruct Hop; try reflexivity.
    + destruct g; try contradiction; reflexivity.
    + destruct H as [-> | ->]; reflexivity.
    + destruct H as [-> | ->]; reflexivity.
    + destruct H as [-> | ->]; reflexivity.
    + destruct H as [-> |(r & ->)]; reflexivity.
    + exfalso. apply On0. eapply ended_off; [exact R|exact Hg|exact H0|exact Hs|]. exact (uncaught_lemma _ _ _ R').
    + exfalso. apply (pi_abort _ _ _ (preachable_pinv _ _ _ _ R') x id). rewrite He. left. reflexivity.
  - assert (U1 := count_upd ended _ _ PLoop _ Hy). assert (Hx' : nth_error (upd (pstages s) y PLoop) x = Some (PSpawn (S k))) by (rewrite nth_upd_other by congruence; exact Hx).
    assert (U2 := count_upd ended _ _ (PSpawn k) _ Hx'). unfold thrown in *. rewrite Hs, He. cbn [ended b2n] in U1, U2. lia.
Qed.
