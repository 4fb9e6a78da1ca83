(** Proofs about disabling a thread pool. *)
From Coq Require Import NArith List Bool Arith Lia Permutation ZifyBool ZifyNat ZifyN.
From Verif Require Import Wait_spec Wait_proofs Consumer_model Consumer_spec Consumer_proofs Pool_model Pool_spec Pool_proofs PoolStop_spec.
Import ListNotations.

Lemma nth_upd {A} (l : list A) i j x y : nth_error (upd l i x) j = Some y ->
  (j = i /\ y = x) \/ (j <> i /\ nth_error l j = Some y).
Proof.
  destruct (Nat.eq_dec i j) as [<-|D]; intro H.
  - left. split; [reflexivity|]. destruct (nth_error l i) as [z|] eqn:E.
    + rewrite (nth_upd_same _ _ _ _ E) in H. congruence.
    + apply nth_error_None in E. assert (G : nth_error (upd l i x) i = None) by (apply nth_error_None; rewrite upd_length; exact E). congruence.
  - right. rewrite nth_upd_other in H by exact D. split; [congruence|exact H].
Qed.

Definition controls (g : pstage) : bool := match g with PEnable | PSpawn _ | PDisable | PQueueOff | PJoin _ => true | _ => false end.

Record SInv (c : nat) (s : pstate) : Prop := {
  si_ctrl : forall t g, nth_error (pstages s) t = Some g -> controls g = true -> t = c;
  si_mine : forall u g, nth_error (pstages s) u = Some g -> pool_thread g = true -> In u (pool_threads s);
  si_off : pool_enabled s = false -> pool_threads s = [] \/ nth_error (pstages s) c = Some PQueueOff \/ exists l, nth_error (pstages s) c = Some (PJoin l);
  si_spawn : forall k, nth_error (pstages s) c = Some (PSpawn k) -> pool_enabled s = true;
  si_join : forall l, nth_error (pstages s) c = Some (PJoin l) -> forall u, In u (pool_threads s) -> In u l \/ nth_error (pstages s) u = Some PEnded }.

Lemma init_sinv c n m : SInv c (pinit n m).
Proof.
  constructor; cbn [pool_threads pool_enabled pinit].
  - intros t g Hg. destruct (init_stage _ _ _ _ Hg) as [->| ->]; discriminate.
  - intros t g Hg. destruct (init_stage _ _ _ _ Hg) as [->| ->]; discriminate.
  - left. reflexivity.
  - intros k Hg. destruct (init_stage _ _ _ _ Hg); discriminate.
  - intros l Hg. destruct (init_stage _ _ _ _ Hg); discriminate.
Qed.

(** a step that moves [t] from [g] to [g'] and touches neither enabled_ nor threads_ *)
Lemma sinv_move c s t g g' s' : SInv c s -> nth_error (pstages s) t = Some g -> g <> PEnded ->
  pstages s' = upd (pstages s) t g' -> pool_enabled s' = pool_enabled s -> pool_threads s' = pool_threads s ->
  (controls g' = true -> t = c) -> (pool_thread g' = true -> pool_thread g = true) ->
  (forall k, g' <> PSpawn k \/ exists k', g = PSpawn k') ->
  (controls g = true -> pool_enabled s = false -> pool_threads s = [] \/ g' = PQueueOff \/ exists l, g' = PJoin l) ->
  (forall l, g' = PJoin l -> forall u, In u (pool_threads s) -> In u l \/ (u <> t /\ nth_error (pstages s) u = Some PEnded)) ->
  SInv c s'.
Proof.
  intros [Ic Im Io Is Ij] Hg Hne Hs He Ht Kc Kp Ks Ko Kj. constructor; rewrite ?Hs, ?He, ?Ht.
  - intros u h Hu Hh. apply nth_upd in Hu as [[-> ->]|[D Hu]]; [exact (Kc Hh)|exact (Ic _ _ Hu Hh)].
  - intros u h Hu Hh. apply nth_upd in Hu as [[-> ->]|[D Hu]]; [exact (Im _ _ Hg (Kp Hh))|exact (Im _ _ Hu Hh)].
  - intros Hf. destruct (Nat.eq_dec t c) as [->|D].
    + rewrite (nth_upd_same _ _ _ _ Hg). destruct (controls g) eqn:Hc.
      * destruct (Ko eq_refl Hf) as [H|[->|[l ->]]]; [left; exact H|right; left; reflexivity|right; right; exists l; reflexivity].
      * destruct (Io Hf) as [H|[H|[l H]]]; [left; exact H| |]; rewrite Hg in H; injection H as ->; discriminate.
    + rewrite (nth_upd_other _ _ _ _ D). exact (Io Hf).
  - intros k Hk. apply nth_upd in Hk as [[-> E]|[D Hk]]; [|exact (Is _ Hk)]. destruct (Ks k) as [H|[k' ->]]; [congruence|]. exact (Is _ Hg).
  - intros l Hl u Hu. apply nth_upd in Hl as [[-> E]|[D Hl]].
    + destruct (Kj l (eq_sym E) u Hu) as [H|[H1 H2]]; [left; exact H|right]. rewrite nth_upd_other by congruence. exact H2.
    + destruct (Ij l Hl u Hu) as [H|H]; [left; exact H|right]. rewrite nth_upd_other; [exact H|]. intros ->. congruence.
Qed.

Lemma sinv_plain c s t g g' s' : SInv c s -> nth_error (pstages s) t = Some g -> g <> PEnded ->
  pstages s' = upd (pstages s) t g' -> pool_enabled s' = pool_enabled s -> pool_threads s' = pool_threads s ->
  controls g = false -> controls g' = false -> (pool_thread g' = true -> pool_thread g = true) -> SInv c s'.
Proof.
  intros I Hg Hne Hs He Ht K1 K2 Kp. eapply sinv_move; try eassumption.
  - congruence.
  - intros k. left. intros ->. discriminate.
  - congruence.
  - intros us ->. discriminate.
Qed.

Lemma sinv_same c s s' : SInv c s -> pstages s' = pstages s -> pool_enabled s' = pool_enabled s -> pool_threads s' = pool_threads s -> SInv c s'.
Proof. intros [] H1 H2 H3. constructor; rewrite ?H1, ?H2, ?H3; assumption. Qed.

Lemma pstep_sinv c s l s' : SInv c s -> controlled_by c l -> pstep s l = Some s' ->
  SInv c s' /\ (forall t, events s' = EvDisabled t :: events s -> pool_threads s' = []).
Proof.
  intros I A E.
  assert (N : forall s1, SInv c s1 -> (forall t, events s1 <> EvDisabled t :: events s) -> SInv c s1 /\ (forall t, events s1 = EvDisabled t :: events s -> pool_threads s1 = []))
    by (intros s1 H1 H2; split; [exact H1|intros t H; destruct (H2 t H)]).
  assert (L : forall (e : pevent) es, es <> e :: es) by (intros e es H; apply (f_equal (@length _)) in H; cbn in H; lia).
  assert (C : forall t cc g g' s1 s', nth_error (pstages s) t = Some g -> g <> PEnded -> pstages s1 = pstages s -> pool_enabled s1 = pool_enabled s -> pool_threads s1 = pool_threads s -> events s1 = events s ->
    controls g = false -> controls g' = false -> (pool_thread g' = true -> pool_thread g = true) -> queue_call t cc g' s1 = Some s' ->
    SInv c s' /\ (forall t, events s' = EvDisabled t :: events s -> pool_threads s' = [])).
  { intros t cc g g' s1 s2 Hg Hne H1 H2 H3 H4 K1 K2 K3 E1. unfold queue_call in E1. destruct (cstep (queue s1) (CCall t cc)) as [q|]; [|discriminate]. injection E1 as <-.
    apply N; [|pf; rewrite H4; intros u; apply L]. eapply sinv_plain with (g := g) (g' := g'); try eassumption; pf; congruence. }
  assert (Q : forall t pick g s', nth_error (pstages s) t = Some g -> in_queue_step t pick g s = Some s' -> match g with PProduce _ | PQueueOff | PWaitTasks | PConsume => True | _ => False end ->
    SInv c s' /\ (forall t, events s' = EvDisabled t :: events s -> pool_threads s' = [])).
  { intros t pick g s1 Hg E1 Hk. unfold in_queue_step in E1. destruct (nth_error (stages (queue s)) t) as [k|]; [|discriminate].
    fold (own k t pick) in E1. destruct (cstep (queue s) (own k t pick)) as [q|]; [|discriminate].
    assert (S0 : SInv c (set_queue q s)) by (eapply sinv_same; [exact I| | |]; reflexivity).
    destruct (nth_error (stages q) t) as [[]|]; injection E1 as <-; try (apply N; [exact S0|intros u; apply L]).
    destruct g; try contradiction; cbn [queue_returned].
    - apply N; [|pf; intros u; discriminate]. eapply sinv_plain; [exact S0|exact Hg| | | | | | |]; try reflexivity; discriminate.
    - apply N; [|pf; intros u; apply L]. eapply sinv_move; [exact S0|exact Hg| | | | | | | | |]; try reflexivity; try discriminate.
      + intros _. exact (si_ctrl _ _ I _ _ Hg eq_refl).
      + left. discriminate.
      + intros _ _. right. right. eexists. reflexivity.
      + intros us H u Hu. injection H as <-. left. exact Hu.
    - destruct (log (handler (queue (set_queue q s)))) as [|[u w r|u w|u w] ws]; (apply N; [|pf; intros v; first [apply L|discriminate]]);
      (eapply sinv_plain; [exact S0|exact Hg| | | | | | |]; try reflexivity; discriminate).
    - destruct (results (queue (set_queue q s))) as [|[u x|u r|u|u] ws]; try destruct r; (apply N; [|pf; intros v; first [apply L|discriminate]]);
      (eapply sinv_plain; [exact S0|exact Hg| | | | | | |]; try reflexivity; discriminate). }
  destruct l as [t cl|t pick|t| |t|t d]; cbn [pstep] in E.
  - destruct (nth_error (pstages s) t) as [g|] eqn:Hg; [|discriminate]. destruct g; try discriminate. destruct cl; cbn [pstart] in E;
    try (injection E as <-; apply N; [|intros u; apply L]).
    + eapply sinv_plain; [exact I|exact Hg| | | | | | |]; try reflexivity; discriminate.
    + eapply sinv_plain; [exact I|exact Hg| | | | | | |]; try reflexivity; discriminate.
    + eapply sinv_move; [exact I|exact Hg| | | | | | | | |]; try reflexivity; try discriminate. { intros _; exact A. } left; discriminate.
    + eapply sinv_move; [exact I|exact Hg| | | | | | | | |]; try reflexivity; try discriminate. { intros _; exact A. } left; discriminate.
    + eapply C; [exact Hg| | | | | | | | |exact E]; try reflexivity; discriminate.
  - destruct (nth_error (pstages s) t) as [g|] eqn:Hg; [|discriminate].
    destruct g as [| |id|id|id| |k| | |us| | | |id|id|]; cbn [prun] in E; try discriminate;
    try (destruct (free (slots_mutex s)); [|discriminate]);
    try (match type of E with context [if registered id s then _ else _] => destruct (registered id s) end);
    try (exact (Q _ _ _ _ Hg E Logic.I));
    try (eapply C; [exact Hg| | | | | | | | |exact E]; try reflexivity; discriminate);
    try (injection E as <-; apply N; [|pf; intros v; first [apply L|discriminate]]; eapply sinv_plain; [exact I|exact Hg| | | | | | |]; try reflexivity; discriminate).
    + (* enable *) assert (t = c) as -> by exact (si_ctrl _ _ I _ _ Hg eq_refl). destruct (pool_enabled s) eqn:En; injection E as <-; (apply N; [|pf; intros v; first [apply L|discriminate]]).
      * eapply sinv_move; [exact I|exact Hg| | | | | | | | |]; try reflexivity; try discriminate; [left; discriminate|congruence].
      * destruct (si_off _ _ I En) as [Z|[Z|[l Z]]]; [|congruence|congruence]. constructor; pf.
        -- intros u h Hu Hh. apply nth_upd in Hu as [[-> ->]|[D Hu]]; [reflexivity|exact (si_ctrl _ _ I _ _ Hu Hh)].
        -- intros u h Hu Hh. apply nth_upd in Hu as [[-> ->]|[D Hu]]; [discriminate|exact (si_mine _ _ I _ _ Hu Hh)].
        -- discriminate.
        -- reflexivity.
        -- intros l. rewrite (nth_upd_same _ _ _ _ Hg). discriminate.
    + (* spawn *) assert (t = c) as -> by exact (si_ctrl _ _ I _ _ Hg eq_refl). pose proof (si_spawn _ _ I _ Hg) as En. destruct k as [|k].
      * injection E as <-. apply N; [|pf; intros v; discriminate]. eapply sinv_move; [exact I|exact Hg| | | | | | | | |]; try reflexivity; try discriminate; [left; discriminate|congruence].
      * destruct (nth_error (pstages s) pick) as [g|] eqn:Hp; [|discriminate]. destruct g; try discriminate. injection E as <-. apply N; [|pf; intros v; apply L].
        assert (Dp : pick <> c) by congruence. assert (Hc : nth_error (upd (pstages s) pick PLoop) c = Some (PSpawn (S k))) by (rewrite nth_upd_other by exact Dp; exact Hg). constructor; pf.
        -- intros u h Hu Hh. apply nth_upd in Hu as [[-> ->]|[D Hu]]; [reflexivity|]. apply nth_upd in Hu as [[-> ->]|[D' Hu]]; [discriminate|exact (si_ctrl _ _ I _ _ Hu Hh)].
        -- intros u h Hu Hh. apply in_or_app. apply nth_upd in Hu as [[-> ->]|[D Hu]]; [discriminate|]. apply nth_upd in Hu as [[-> ->]|[D' Hu]]; [right; left; reflexivity|left; exact (si_mine _ _ I _ _ Hu Hh)].
        -- congruence.
        -- intros _ _. exact En.
        -- intros l. rewrite (nth_upd_same _ _ _ _ Hc). discriminate.
    + (* disable *) assert (t = c) as -> by exact (si_ctrl _ _ I _ _ Hg eq_refl). destruct (pool_enabled s) eqn:En.
      * unfold queue_call in E. destruct (cstep _ _) as [q|]; [|discriminate]. injection E as <-. apply N; [|pf; intros v; apply L]. constructor; pf.
        -- intros u h Hu Hh. apply nth_upd in Hu as [[-> ->]|[D Hu]]; [reflexivity|exact (si_ctrl _ _ I _ _ Hu Hh)].
        -- intros u h Hu Hh. apply nth_upd in Hu as [[-> ->]|[D Hu]]; [discriminate|exact (si_mine _ _ I _ _ Hu Hh)].
        -- intros _. right. left. exact (nth_upd_same _ _ _ _ Hg).
        -- intros k. rewrite (nth_upd_same _ _ _ _ Hg). discriminate.
        -- intros k. rewrite (nth_upd_same _ _ _ _ Hg). discriminate.
      * injection E as <-. destruct (si_off _ _ I En) as [Z|[Z|[l Z]]]; [|congruence|congruence]. split; [|intros _ _; exact Z].
        eapply sinv_move; [exact I|exact Hg| | | | | | | | |]; try reflexivity; try discriminate; [left; discriminate|intros _ _; left; exact Z].
    + (* join *) assert (t = c) as -> by exact (si_ctrl _ _ I _ _ Hg eq_refl). destruct us as [|u us].
      * injection E as <-. split; [|reflexivity]. constructor; pf.
        -- intros u h Hu Hh. apply nth_upd in Hu as [[-> ->]|[D Hu]]; [discriminate|exact (si_ctrl _ _ I _ _ Hu Hh)].
        -- intros u h Hu Hh. apply nth_upd in Hu as [[-> ->]|[D Hu]]; [discriminate|]. destruct (si_join _ _ I _ Hg u (si_mine _ _ I _ _ Hu Hh)) as [[]|H]. rewrite Hu in H. injection H as ->. discriminate.
        -- intros _. left. reflexivity.
        -- intros k. rewrite (nth_upd_same _ _ _ _ Hg). discriminate.
        -- intros k. rewrite (nth_upd_same _ _ _ _ Hg). discriminate.
      * destruct (nth_error (pstages s) u) as [g|] eqn:Hu; [|discriminate]. destruct g; try discriminate. injection E as <-. apply N; [|pf; intros v; apply L].
        eapply sinv_move; [exact I|exact Hg| | | | | | | | |]; try reflexivity; try discriminate.
        -- left. discriminate.
        -- intros _ _. right. right. eexists. reflexivity.
        -- intros l H v Hv. injection H as <-. destruct (si_join _ _ I _ Hg v Hv) as [[<-|H]|H]; [right|left; exact H|right]; (split; [congruence|assumption]).
  - destruct (cstep (queue s) (CSpurious t)); [|discriminate]. injection E as <-. apply N; [|intros u; apply L]. eapply sinv_same; [exact I| | |]; reflexivity.
  - destruct (cstep (queue s) CTick); [|discriminate]. injection E as <-. apply N; [|intros u; apply L]. eapply sinv_same; [exact I| | |]; reflexivity.
  - destruct (cstep (queue s) (CExpire t)); [|discriminate]. injection E as <-. apply N; [|intros u; apply L]. eapply sinv_same; [exact I| | |]; reflexivity.
  - destruct (nth_error (pstages s) t) as [g|] eqn:Hg; [|discriminate]. destruct g; try discriminate. injection E as <-. apply N; [|pf; intros v; discriminate]. eapply sinv_plain; [exact I|exact Hg| | | | | | |]; try reflexivity; discriminate.
Qed.

Lemma preachable_sinv c n m s : preachable (controlled_by c) (pinit n m) s -> SInv c s.
Proof. intros R. induction R as [|s l s' R IH A E]; [apply init_sinv|exact (proj1 (pstep_sinv _ _ _ _ IH A E))]. Qed.

(** ** Tasks that have started and not ended *)
Definition body (id : nat) (g : pstage) : bool := match g with PBody i => i =? id | _ => false end.
Definition balanced (s : pstate) : Prop := forall id, times id (started s) = times id (finished s) + count (body id) (pstages s).

Lemma finished_one s s' e : events s' = e :: events s -> finished s' = finished s ++ match e with EvEnd _ id | EvThrown _ id _ => [id] | _ => [] end.
Proof. intros H. unfold finished. rewrite H. cbn [rev]. rewrite flat_map_app. cbn [flat_map]. rewrite app_nil_r. reflexivity. Qed.
Lemma finished_same s s' : events s' = events s -> finished s' = finished s.
Proof. intros H. unfold finished. rewrite H. reflexivity. Qed.

Lemma balanced_say s s' e : balanced s -> events s' = e :: events s -> match e with EvStart _ _ | EvEnd _ _ | EvThrown _ _ _ => False | _ => True end ->
  (forall id, count (body id) (pstages s') = count (body id) (pstages s)) -> balanced s'.
Proof.
  intros B H K C id. rewrite (started_one s s' e H), (finished_one s s' e H), C. destruct e; try contradiction; rewrite !app_nil_r; apply B.
Qed.
Lemma balanced_same s s' : balanced s -> events s' = events s -> (forall id, count (body id) (pstages s') = count (body id) (pstages s)) -> balanced s'.
Proof. intros B H C id. rewrite (started_same s s' H), (finished_same s s' H), C. apply B. Qed.

Lemma times_one id i : times id [i] = b2n (i =? id).
Proof. unfold times. cbn. destruct (Nat.eq_dec i id) as [->|D]; [rewrite Nat.eqb_refl; reflexivity|]. apply Nat.eqb_neq in D. rewrite D. reflexivity. Qed.

Lemma pstep_balanced s l s' : balanced s -> pstep s l = Some s' -> balanced s'.
Proof.
  intros B E.
  assert (M : forall t g g' id, nth_error (pstages s) t = Some g -> body id g = body id g' -> count (body id) (upd (pstages s) t g') = count (body id) (pstages s))
    by (intros t g g' id Hg Hb; eapply count_move; [exact Hg|congruence]).
  assert (C : forall t cc g g' s1 s', nth_error (pstages s) t = Some g -> pstages s1 = pstages s -> events s1 = events s ->
    (forall id, body id g = body id g') -> queue_call t cc g' s1 = Some s' -> balanced s').
  { intros t cc g g' s1 s2 Hg H1 H4 K E1. unfold queue_call in E1. destruct (cstep (queue s1) (CCall t cc)) as [q|]; [|discriminate]. injection E1 as <-.
    apply balanced_same with s; [exact B|exact H4|]. intros id. pf. rewrite H1. exact (M _ _ _ _ Hg (K id)). }
  assert (Q : forall t pick g s', nth_error (pstages s) t = Some g -> in_queue_step t pick g s = Some s' -> match g with PProduce _ | PQueueOff | PWaitTasks | PConsume => True | _ => False end -> balanced s').
  { intros t pick g s1 Hg E1 Hk. unfold in_queue_step in E1. destruct (nth_error (stages (queue s)) t) as [k|]; [|discriminate].
    fold (own k t pick) in E1. destruct (cstep (queue s) (own k t pick)) as [q|]; [|discriminate].
    destruct (nth_error (stages q) t) as [[]|]; injection E1 as <-; try (apply balanced_same with s; [exact B|reflexivity|intros id; reflexivity]).
    destruct g; try contradiction; cbn [queue_returned].
    - eapply balanced_say; [exact B|reflexivity|exact Logic.I|]. intros id'. apply (M _ _ _ _ Hg). reflexivity.
    - eapply balanced_same; [exact B|reflexivity|]. intros id'. apply (M _ _ _ _ Hg). reflexivity.
    - destruct (log (handler (queue (set_queue q s)))) as [|[u w r|u w|u w] ws];
      first [eapply balanced_same; [exact B|reflexivity|]|eapply balanced_say; [exact B|reflexivity|exact Logic.I|]]; intros id'; apply (M _ _ _ _ Hg); reflexivity.
    - destruct (results (queue (set_queue q s))) as [|[u x|u r|u|u] ws]; try destruct r;
      first [eapply balanced_same; [exact B|reflexivity|]|eapply balanced_say; [exact B|reflexivity|exact Logic.I|]]; intros id'; apply (M _ _ _ _ Hg); reflexivity. }
  destruct l as [t cl|t pick|t| |t|t d]; cbn [pstep] in E.
  - destruct (nth_error (pstages s) t) as [g|] eqn:Hg; [|discriminate]. destruct g; try discriminate. destruct cl; cbn [pstart] in E;
    try (injection E as <-; eapply balanced_same; [exact B|reflexivity|]; intros id'; apply (M _ _ _ _ Hg); reflexivity).
    eapply C; [exact Hg| | | |exact E]; reflexivity.
  - destruct (nth_error (pstages s) t) as [g|] eqn:Hg; [|discriminate].
    destruct g as [| |id|id|id| |k| | |us| | | |id|id|]; cbn [prun] in E; try discriminate;
    try (destruct (free (slots_mutex s)); [|discriminate]);
    try (match type of E with context [if registered id s then _ else _] => destruct (registered id s) end);
    try (match type of E with context [if pool_enabled s then _ else _] => destruct (pool_enabled s) end);
    try (exact (Q _ _ _ _ Hg E Logic.I));
    try (eapply C; [exact Hg| | | |exact E]; reflexivity);
    try (injection E as <-; first [eapply balanced_same; [exact B|reflexivity|]|eapply balanced_say; [exact B|reflexivity|exact Logic.I|]]; intros id'; apply (M _ _ _ _ Hg); reflexivity).
    + destruct k as [|k]; [injection E as <-; eapply balanced_say; [exact B|reflexivity|exact Logic.I|]; intros id'; apply (M _ _ _ _ Hg); reflexivity|].
      destruct (nth_error (pstages s) pick) as [g|] eqn:Hp; [|discriminate]. destruct g; try discriminate. injection E as <-. eapply balanced_same; [exact B|reflexivity|]. intros id'. pf.
      etransitivity; [apply (count_move (body id') _ t (PSpawn k) (PSpawn (S k)))|apply (M _ _ _ _ Hp)]; try reflexivity. rewrite nth_upd_other by congruence. exact Hg.
    + destruct us as [|u us]; [injection E as <-; eapply balanced_say; [exact B|reflexivity|exact Logic.I|]; intros id'; apply (M _ _ _ _ Hg); reflexivity|].
      destruct (nth_error (pstages s) u) as [g|]; [|discriminate]. destruct g; try discriminate. injection E as <-. eapply balanced_same; [exact B|reflexivity|]; intros id'; apply (M _ _ _ _ Hg); reflexivity.
    + injection E as <-. intros i. rewrite (started_one s _ (EvStart t id)) by reflexivity. rewrite (finished_one s _ (EvStart t id)) by reflexivity. pf. rewrite app_nil_r, times_app, times_one.
      pose proof (count_upd (body i) _ _ (PBody id) _ Hg) as U. cbn [body b2n] in U. specialize (B i). cbn [body] in U. lia.
    + injection E as <-. intros i. rewrite (started_one s _ (EvEnd t id)) by reflexivity. rewrite (finished_one s _ (EvEnd t id)) by reflexivity. pf. rewrite app_nil_r, times_app, times_one.
      pose proof (count_upd (body i) _ _ PLoop _ Hg) as U. cbn [body b2n] in U. specialize (B i). lia.
  - destruct (cstep (queue s) (CSpurious t)); [|discriminate]. injection E as <-. exact B.
  - destruct (cstep (queue s) CTick); [|discriminate]. injection E as <-. exact B.
  - destruct (cstep (queue s) (CExpire t)); [|discriminate]. injection E as <-. exact B.
  - destruct (nth_error (pstages s) t) as [g|] eqn:Hg; [|discriminate]. destruct g; try discriminate. injection E as <-. intros i. rewrite (started_one s _ (EvThrown t id d)) by reflexivity. rewrite (finished_one s _ (EvThrown t id d)) by reflexivity. pf. rewrite app_nil_r, times_app, times_one.
    pose proof (count_upd (body i) _ _ PEnded _ Hg) as U. cbn [body b2n] in U. specialize (B i). lia.
Qed.

Lemma preachable_balanced allowed n m s : preachable allowed (pinit n m) s -> balanced s.
Proof.
  intros R. induction R as [|s l s' R IH A E]; [|exact (pstep_balanced _ _ _ IH E)].
  intros id. cbn [pstages pinit]. rewrite count_app, !count_repeat' by reflexivity. reflexivity.
Qed.

(** ** Nothing starts until the pool is enabled again *)
Definition quiet (s : pstate) : Prop := forall t g, nth_error (pstages s) t = Some g -> pool_thread g = false /\ g <> PEnable /\ forall k, g <> PSpawn k.

Lemma quiet_move s s' t g : quiet s -> pstages s' = upd (pstages s) t g -> pool_thread g = false -> g <> PEnable -> (forall k, g <> PSpawn k) -> quiet s'.
Proof. intros Q H H1 H2 H3 u h Hu. rewrite H in Hu. apply nth_upd in Hu as [[-> ->]|[D Hu]]; [repeat split; assumption|exact (Q _ _ Hu)]. Qed.

Lemma pstep_quiet s l s' : quiet s -> no_enable l -> pstep s l = Some s' -> quiet s' /\ started s' = started s.
Proof.
  intros Q A E.
  assert (P : forall s1 t g, pstages s1 = upd (pstages s) t g -> pool_thread g = false -> g <> PEnable -> (forall k, g <> PSpawn k) ->
    (events s1 = events s \/ exists e, events s1 = e :: events s /\ match e with EvStart _ _ => False | _ => True end) -> quiet s1 /\ started s1 = started s).
  { intros s1 t g H H1 H2 H3 H4. split; [exact (quiet_move _ _ _ _ Q H H1 H2 H3)|]. destruct H4 as [H4|[e [H4 H5]]]; [exact (started_same _ _ H4)|exact (started_quiet _ _ _ H4 H5)]. }
  assert (C : forall t cc g s1 s', pstages s1 = pstages s -> events s1 = events s ->
    pool_thread g = false -> g <> PEnable -> (forall k, g <> PSpawn k) -> queue_call t cc g s1 = Some s' -> quiet s' /\ started s' = started s).
  { intros t cc g s1 s2 H1 H4 K1 K2 K3 E1. unfold queue_call in E1. destruct (cstep (queue s1) (CCall t cc)) as [q|]; [|discriminate]. injection E1 as <-.
    apply P with t g; try assumption; [pf; congruence|left; exact H4]. }
  assert (W : forall t pick g s', nth_error (pstages s) t = Some g -> in_queue_step t pick g s = Some s' -> match g with PProduce _ | PQueueOff | PWaitTasks => True | _ => False end -> quiet s' /\ started s' = started s).
  { intros t pick g s1 Hg E1 Hk. unfold in_queue_step in E1. destruct (nth_error (stages (queue s)) t) as [k|]; [|discriminate].
    fold (own k t pick) in E1. destruct (cstep (queue s) (own k t pick)) as [q|]; [|discriminate].
    destruct (nth_error (stages q) t) as [[]|]; injection E1 as <-; try (split; [exact Q|reflexivity]).
    destruct g; try contradiction; cbn [queue_returned].
    - eapply P; try reflexivity; try discriminate. right. eexists. split; [reflexivity|exact Logic.I].
    - eapply P; try reflexivity; try discriminate. left. reflexivity.
    - destruct (log (handler (queue (set_queue q s)))) as [|[u w r|u w|u w] ws]; (eapply P; try reflexivity; try discriminate);
      first [left; reflexivity|right; eexists; split; [reflexivity|exact Logic.I]]. }
  destruct l as [t cl|t pick|t| |t|t d]; cbn [pstep] in E.
  - destruct (nth_error (pstages s) t) as [g|] eqn:Hg; [|discriminate]. destruct g; try discriminate. destruct cl; cbn [pstart] in E; try contradiction;
    try (injection E as <-; eapply P; try reflexivity; try discriminate; left; reflexivity).
    eapply C; [| | | | |exact E]; try reflexivity; discriminate.
  - destruct (nth_error (pstages s) t) as [g|] eqn:Hg; [|discriminate]. destruct (Q _ _ Hg) as (Q1 & Q2 & Q3).
    destruct g as [| |id|id|id| |k| | |us| | | |id|id|]; try discriminate; try congruence; cbn [prun] in E; try discriminate;
    try (destruct (free (slots_mutex s)); [|discriminate]);
    try (match type of E with context [if registered id s then _ else _] => destruct (registered id s) end);
    try (match type of E with context [if pool_enabled s then _ else _] => destruct (pool_enabled s) end);
    try (exact (W _ _ _ _ Hg E Logic.I));
    try (eapply C; [| | | | |exact E]; try reflexivity; discriminate);
    try (injection E as <-; eapply P; try reflexivity; try discriminate; first [left; reflexivity|right; eexists; split; [reflexivity|exact Logic.I]]).
    destruct us as [|u us].
    + injection E as <-; eapply P; try reflexivity; try discriminate; first [left; reflexivity|right; eexists; split; [reflexivity|exact Logic.I]].
    + destruct (nth_error (pstages s) u) as [g|]; [|discriminate]. destruct g; try discriminate. injection E as <-; eapply P; try reflexivity; try discriminate; left; reflexivity.
  - destruct (cstep (queue s) (CSpurious t)); [|discriminate]. injection E as <-. split; [exact Q|reflexivity].
  - destruct (cstep (queue s) CTick); [|discriminate]. injection E as <-. split; [exact Q|reflexivity].
  - destruct (cstep (queue s) (CExpire t)); [|discriminate]. injection E as <-. split; [exact Q|reflexivity].
  - destruct (nth_error (pstages s) t) as [g|] eqn:Hg; [|discriminate]. destruct g; try discriminate. destruct (Q _ _ Hg) as (Q1 & _). discriminate.
Qed.

Lemma psteps_quiet : forall ls s s', quiet s -> Forall no_enable ls -> psteps s ls = Some s' -> quiet s' /\ started s' = started s.
Proof.
  induction ls as [|l ls IH]; intros s s' Q F E; cbn [psteps] in E.
  - injection E as <-. split; [exact Q|reflexivity].
  - destruct (pstep s l) as [s0|] eqn:E0; [|discriminate]. inversion F as [|? ? F1 F2]; subst. destruct (pstep_quiet _ _ _ Q F1 E0) as [Q0 E1].
    destruct (IH _ _ Q0 F2 E) as [Q' E2]. split; [exact Q'|congruence].
Qed.

(** the stage of the thread that returns from disable *)
Lemma disabled_stage s l s' t : pstep s l = Some s' -> events s' = EvDisabled t :: events s -> exists pick g, l = PRun t pick /\ (g = PDisable \/ g = PJoin []) /\
  nth_error (pstages s) t = Some g /\ pstages s' = upd (pstages s) t PIdle.
Proof.
  intros E He. assert (L : forall (e : pevent) es, es <> e :: es) by (intros e es H; apply (f_equal (@length _)) in H; cbn in H; lia).
  assert (C : forall u cc g s1 s', events s1 = events s -> queue_call u cc g s1 = Some s' -> events s' <> EvDisabled t :: events s).
  { intros u cc g s1 s2 H1 E1. unfold queue_call in E1. destruct (cstep (queue s1) (CCall u cc)) as [q|]; [|discriminate]. injection E1 as <-. pf. rewrite H1. apply L. }
  assert (W : forall u pick g s', in_queue_step u pick g s = Some s' -> events s' <> EvDisabled t :: events s).
  { intros u pick g s1 E1. unfold in_queue_step in E1. destruct (nth_error (stages (queue s)) u) as [k|]; [|discriminate].
    fold (own k u pick) in E1. destruct (cstep (queue s) (own k u pick)) as [q|]; [|discriminate].
    destruct (nth_error (stages q) u) as [[]|]; injection E1 as <-; try apply L.
    destruct g; cbn [queue_returned]; try apply L; try (pf; discriminate).
    - destruct (log (handler (queue (set_queue q s)))) as [|[v w r|v w|v w] ws]; first [apply L|pf; discriminate].
    - destruct (results (queue (set_queue q s))) as [|[v x|v r|v|v] ws]; try destruct r; first [apply L|pf; discriminate]. }
  destruct l as [u cl|u pick|u| |u|u d]; cbn [pstep] in E.
  - destruct (nth_error (pstages s) u) as [g|] eqn:Hg; [|discriminate]. destruct g; try discriminate. destruct cl; cbn [pstart] in E;
    try (injection E as <-; destruct (L _ _ He)). destruct (C _ _ _ _ _ eq_refl E He).
  - destruct (nth_error (pstages s) u) as [g|] eqn:Hg; [|discriminate]. exists pick, g.
    destruct g as [| |id|id|id| |k| | |us| | | |id|id|]; cbn [prun] in E; try discriminate;
    try (destruct (free (slots_mutex s)); [|discriminate]);
    try (match type of E with context [if registered id s then _ else _] => destruct (registered id s) end);
    try (match type of E with context [if pool_enabled s then _ else _] => destruct (pool_enabled s) end);
    try (destruct (W _ _ _ _ E He));
    try (injection E as <-; first [destruct (L _ _ He)|discriminate He]);
    try (refine (False_ind _ (C _ _ _ _ _ _ E He)); reflexivity).
    + destruct k as [|k]; [injection E as <-; discriminate He|]. destruct (nth_error (pstages s) pick) as [g|] eqn:Hp; [|discriminate]. destruct g; try discriminate. injection E as <-. destruct (L _ _ He).
    + injection E as <-. cbn in He. injection He as ->. repeat split; auto.
    + destruct us as [|v us]; [injection E as <-; cbn in He; injection He as ->; repeat split; auto|].
      destruct (nth_error (pstages s) v) as [g|]; [|discriminate]. destruct g; try discriminate. injection E as <-. destruct (L _ _ He).
  - destruct (cstep (queue s) (CSpurious u)); [|discriminate]. injection E as <-. destruct (L _ _ He).
  - destruct (cstep (queue s) CTick); [|discriminate]. injection E as <-. destruct (L _ _ He).
  - destruct (cstep (queue s) (CExpire u)); [|discriminate]. injection E as <-. destruct (L _ _ He).
  - destruct (nth_error (pstages s) u) as [g|] eqn:Hg; [|discriminate]. destruct g; try discriminate. injection E as <-. discriminate He.
Qed.

Lemma disable_waits_lemma : forall n m c s l s' t, preachable (controlled_by c) (pinit n m) s -> controlled_by c l -> pstep s l = Some s' ->
  events s' = EvDisabled t :: events s ->
  all_ended s' /\ Permutation (started s') (finished s') /\
  forall ls s'', Forall no_enable ls -> psteps s' ls = Some s'' -> all_ended s'' /\ started s'' = started s'.
Proof.
  intros n m c s l s' t R A E He. pose proof (preachable_sinv _ _ _ _ R) as I. destruct (pstep_sinv _ _ _ _ I A E) as [I' T]. specialize (T _ He).
  assert (Z : all_ended s').
  { intros u g Hg. destruct (pool_thread g) eqn:Hp; [|reflexivity]. pose proof (si_mine _ _ I' _ _ Hg Hp) as H. rewrite T in H. destruct H. }
  split; [exact Z|]. split.
  - apply (Permutation_count_occ Nat.eq_dec). intros id. pose proof (preachable_balanced (controlled_by c) n m s' (preach_step _ _ _ _ _ R A E) id) as B.
    assert (count (body id) (pstages s') = 0) as B0. { apply count_zero. intros u g Hg. pose proof (Z _ _ Hg). destruct g; try reflexivity. discriminate. }
    unfold times in B. lia.
  - assert (Q : quiet s').
    { destruct (disabled_stage _ _ _ _ E He) as (pick & g & _ & Hd & Hg & Hs). intros u h Hu. split; [exact (Z _ _ Hu)|].
      rewrite Hs in Hu. apply nth_upd in Hu as [[-> ->]|[D Hu]]; [split; [discriminate|intros k; discriminate]|].
      assert (t = c) by (apply (si_ctrl _ _ I _ _ Hg); destruct Hd as [->| ->]; reflexivity).
      split; [intros ->|intros k ->]; apply D; (transitivity c; [exact (si_ctrl _ _ I _ _ Hu eq_refl)|congruence]). }
    intros ls s'' F Es. destruct (psteps_quiet _ _ _ Q F Es) as [Q' H]. split; [|exact H]. intros u g Hu. exact (proj1 (Q' _ _ Hu)).
Qed.

Lemma psteps_controlled (allowed : plabel -> Prop) n m ls : forall s s', preachable allowed (pinit n m) s -> Forall allowed ls -> psteps s ls = Some s' -> preachable allowed (pinit n m) s'.
Proof.
  induction ls as [|l ls IH]; intros s s' R F E; cbn [psteps] in E; [injection E as <-; exact R|].
  destruct (pstep s l) as [s0|] eqn:E0; [|discriminate]. inversion F as [|? ? F1 F2]; subst. apply (IH s0); [|exact F2|exact E]. econstructor; [exact R|exact F1|exact E0].
Qed.

Lemma second_disable_refute : exists ls s, psteps (pinit 2 1) ls = Some s /\
  (exists rest, events s = EvDisabled 1 :: rest) /\ started s = [1] /\ finished s = [] /\ nth_error (pstages s) 2 = Some (PBody 1).
Proof.
  exists ([PCall 0 (Slot 1); PRun 0 0; PCall 0 Enable; PRun 0 1; PRun 0 2; PRun 0 0; PCall 0 (Emit 1)] ++ runs 0 3 ++ runs 2 14 ++
    [PCall 0 Disable; PRun 0 0; PCall 1 Disable; PRun 1 0]).
  eexists. split; [vm_compute; reflexivity|]. split; [eexists; reflexivity|]. repeat split.
Qed.
