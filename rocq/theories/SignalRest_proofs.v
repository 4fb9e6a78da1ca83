(** Proofs of C156: a potential that every step of the threads decreases. *)
From Coq Require Import ZifyBool ZifyNat ZifyN.
From Verif Require Import Signal_model Signal_spec Signal_proofs SignalHandler_proofs SignalRest_spec.
Local Arguments N.ltb : simpl never.
Local Arguments N.eqb : simpl never.
Local Arguments N.modulo : simpl never.
Local Arguments N.add : simpl never.
Local Arguments N.mul : simpl never.
Local Arguments W : simpl never.
Local Arguments number_of : simpl never.

(** threads that may still register something, and how many steps a thread may still make *)
Definition will (p : cpc) : nat := match p with CRegister _ | SLock _ | SSet _ | SFlag _ | SRegister _ => 1 | _ => 0 end.
Definition left (p : cpc) : nat :=
  match p with
  | CIdle | DDone => 0
  | CRegister _ | CUnregister _ | SUnlock _ | UUnlock _ | EIn _ | DJoin => 1
  | SRegister _ | UUnregister _ | ELock _ => 2
  | SFlag _ | UFlag _ => 3
  | SSet _ | UClear _ => 4
  | SLock _ | ULock _ => 5
  | DNotify => 10 | DLock => 11
  end.
Definition most (s : sstate) : nat := length (callbacks s) + number_of will (clients s).
Definition mleft (s : sstate) : nat :=
  match manager s with
  | MSleep | MEnded | MNested _ _ => 0
  | MBlock => 1 | MTest2 => 2 | MTest => 6 | MLock | MWake => 7 | MLoop => 8
  | MStop => if stop s then 1 else if N.eqb (received s) 0 then 10 else 5
  | MCount => if N.eqb (received s) 0 then 9 else 4
  | MTake => 3
  | MDispatch => 3 * most s + 11
  | MCall r => 3 * length r + 9
  | MWant _ r => 3 * length r + 11
  | MIn _ r => 3 * length r + 10
  end.
(** the signals that may still be taken *)
Definition todo (s : sstate) : N := match manager s with MTake => 1 + (received s + W - 1) mod W | _ => received s end.
Definition others (s : sstate) : nat := mleft s + 8 * notifying s + number_of left (clients s).
Definition potential (s : sstate) : N := (todo s * N.of_nat (3 * most s + 12) + N.of_nat (others s))%N.

Lemma put_length m id f : length (map_put m id f) <= S (length m).
Proof. induction m as [|[i g] m IH]; cbn; [lia|]. destruct (N.eqb id i); cbn; [lia|]. destruct (N.ltb id i); cbn; lia. Qed.
Lemma erase_length m id : length (map_erase m id) <= length m.
Proof. induction m as [|[i g] m IH]; cbn; [lia|]. destruct (N.eqb id i); cbn; lia. Qed.
Lemma take_one r : (0 < r)%N -> (r < W)%N -> ((r + W - 1) mod W = r - 1)%N.
Proof. intros A B. replace (r + W - 1)%N with (r - 1 + 1 * W)%N by lia. rewrite N.mod_add, N.mod_small by lia. reflexivity. Qed.

Lemma step_less s l s' : (received s < W)%N -> goes_on l -> sstep s l = Some s' ->
  (todo s' = todo s /\ most s' <= most s /\ others s' < others s) \/ (todo s = (todo s' + 1)%N /\ most s' = most s /\ others s' < others s + (3 * most s + 12)).
Proof.
  intros B G E. destruct G as [-> |[-> |[t ->]]]; cbn [sstep] in E.
  - crack_manager E; injection E as <-; unfold todo, most, others, mleft, most; sf; repeat match goal with H : manager s = _ |- _ => rewrite H in * end; cbn [length]; rewrite ?take_one by lia; try lia.
    all: try (destruct (stop s); destruct (N.eqb (received s) 0) eqn:?; lia).
  - unfold notify in E. destruct (notifying s) eqn:Nn; [discriminate E|]. sf. left. destruct (manager s) eqn:?; injection E as <-; unfold todo, most, others, mleft, most; sf; repeat match goal with H : manager s = _ |- _ => rewrite H in * end; lia.
  - destruct (nth_error (clients s) t) as [p|] eqn:Hp; [|discriminate E]. left.
    assert (U : forall q f, number_of f (upd (clients s) t q) + f p = number_of f (clients s) + f q) by (intros q f; apply number_upd; exact Hp).
    assert (X : forall s1 q, received s1 = received s -> notifying s1 = notifying s -> stop s1 = stop s -> manager s1 = manager s -> clients s1 = upd (clients s) t q ->
      length (callbacks s1) + will q <= length (callbacks s) + will p -> left q < left p -> todo s1 = todo s /\ most s1 <= most s /\ others s1 < others s).
    { intros s1 q E1 E2 E3 E4 E5 Lc Lq. pose proof (U q will). pose proof (U q left). assert (M : most s1 <= most s) by (unfold most; rewrite E5; lia).
      split; [unfold todo; rewrite E4, E1; reflexivity|]. split; [exact M|]. unfold others, mleft. rewrite E1, E2, E3, E4, E5. destruct (manager s); lia. }
    pose proof (put_length (callbacks s)) as PL. pose proof (erase_length (callbacks s)) as EL. 
    destruct p; cbn [cstep do_register fst] in E; unfold do_unregister, notify in E; cbv zeta in E;
      repeat (match type of E with
      | (if ?c then _ else _) = _ => destruct c eqn:?
      | Some (set_client (if ?c then _ else _) _ _) = _ => destruct c eqn:?
      | Some (set_client _ _ (if ?c then _ else _)) = _ => destruct c eqn:?
      end; try discriminate E); try discriminate E;
      try (injection E as <-; eapply X; sf; try reflexivity; cbn [will left]; rewrite ?PL; try specialize (EL id); auto; lia).
    + injection E as <-. pose proof (PL ((last_id s + 1) mod W)%N f). eapply X; sf; try reflexivity; cbn [will left]; lia.
    + injection E as <-. pose proof (PL ((last_id s + 1) mod W)%N (Of h)). eapply X; sf; try reflexivity; cbn [will left]; lia.
    + injection E as <-. pose proof (EL (callback_id (hs s h))). eapply X; sf; try reflexivity; cbn [will left]; lia.
    + injection E as <-. pose proof (U DNotify will). pose proof (U DNotify left). cbn [will left] in *. unfold todo, others, mleft, most. sf. split; [reflexivity|]. split; [lia|]. destruct (manager s); try lia. destruct (stop s); destruct (N.eqb (received s) 0); lia.
    + pose proof (U DJoin will). pose proof (U DJoin left). cbn [will left] in *. destruct (manager s) eqn:Em; injection E as <-; unfold todo, others, mleft, most; sf; rewrite ?Em; (split; [reflexivity|]); (split; [lia|]); lia.
    + destruct (manager s) eqn:Em; try discriminate E. injection E as <-. eapply X; sf; try reflexivity; try exact Em; cbn [will left]; lia.
Qed.
Lemma less_potential s l s' : (received s < W)%N -> goes_on l -> sstep s l = Some s' -> (potential s' < potential s)%N.
Proof.
  intros B G E. unfold potential. destruct (step_less s l s' B G E) as [(T & M & O)|(T & M & O)].
  - rewrite T. assert (N.of_nat (3 * most s' + 12) <= N.of_nat (3 * most s + 12))%N by lia. assert (todo s * N.of_nat (3 * most s' + 12) <= todo s * N.of_nat (3 * most s + 12))%N by (apply N.mul_le_mono_l; assumption). lia.
  - rewrite T, M. rewrite N.mul_add_distr_r. lia.
Qed.
Lemma goes_quiet l : goes_on l -> quiet l.
Proof. intros [-> |[-> |[t ->]]]; discriminate. Qed.
Lemma few_steps n ls : forall s s', sreachable quiet n s -> Forall goes_on ls -> ssteps s ls = Some s' -> sreachable quiet n s' /\ (N.of_nat (length ls) + potential s' <= potential s)%N.
Proof.
  induction ls as [|l ls IH]; intros s s' R F E; cbn [ssteps] in E; [injection E as <-; split; [exact R|cbn; lia]|].
  destruct (sstep s l) as [s0|] eqn:E0; [|discriminate]. inversion F as [|? ? F1 F2]; subst. pose proof (proj1 (proj2 (reach_balance _ _ _ R))) as B. pose proof (less_potential s l s0 B F1 E0) as L.
  destruct (IH s0 s') as [R' L']; [econstructor; [exact R|apply goes_quiet; exact F1|exact E0]|exact F2|exact E|]. split; [exact R'|]. cbn [length]. lia.
Qed.

(** ** What holds when nobody can go on *)
Lemma quiet_nested n s : sreachable quiet n s -> forall f r, manager s <> MNested f r.
Proof.
  intro R. induction R as [|s l s' R IH A E]; [discriminate|]. intros f r. assert (A' : l <> Nested) by exact A. crack E; try (contradiction || discriminate || congruence); intro K; exact (IH f r K) || congruence.
Qed.
Lemma at_rest_lemma n s : sreachable quiet n s -> at_rest s -> (forall t p, nth_error (clients s) t = Some p -> inside p = false) /\ notifying s = 0 /\ (manager s = MSleep \/ manager s = MEnded).
Proof.
  intros R Q. assert (I : forall t p, nth_error (clients s) t = Some p -> inside p = false).
  { intros t p Hp. destruct (inside p) eqn:Ei; [|reflexivity]. destruct (no_deadlock_lemma n s t p R Hp Ei) as (l & s' & O & E). rewrite Q in E; [discriminate|]. destruct l; try destruct O; [left; reflexivity|right; right; eauto]. }
  split; [exact I|]. split.
  - assert (E : sstep s Notify = None) by (apply Q; right; left; reflexivity). cbn [sstep] in E. destruct (notifying s); [reflexivity|discriminate].
  - assert (E : sstep s Manager = None) by (apply Q; left; reflexivity). cbn [sstep] in E. destruct (sv_locks s (reach_sinv _ _ _ R)) as [Lv Lb]. pose proof (quiet_nested n s R) as Qn. pose proof (reach_mutexes _ _ _ R) as Mx.
    unfold mstep in E. cbv zeta in E. destruct (manager s) as [| | | | | | | | | | |[|[? []] ?]|h ?|[] ?|? ?|] eqn:Em; cbn [holds_cv holds_cb] in *; rewrite ?Lv, ?Lb in E; try discriminate E; auto.
    + exfalso. destruct (imutex (hs s h)) eqn:Ei; [|destruct (is_set (hs s h)); discriminate E].
      destruct (Mx h) as [_ M2]. rewrite Em, Ei in M2. cbn [mrunning b2n] in M2. assert (Z : number_of (fun p => b2n (running h p)) (clients s) = 0); [|lia].
      apply number_zero. intros i p Hp. specialize (I i p Hp). destruct p; cbn in *; try reflexivity. discriminate I.
    + exfalso. exact (Qn _ _ eq_refl).
Qed.
Lemma rest_lemma : forall n s, sreachable quiet n s -> exists bound, forall ls s', Forall goes_on ls -> ssteps s ls = Some s' ->
  length ls <= bound /\ (at_rest s' -> notifying s' = 0 /\ (manager s' = MSleep \/ manager s' = MEnded) /\ forall t p, nth_error (clients s') t = Some p -> inside p = false).
Proof.
  intros n s R. exists (N.to_nat (potential s)). intros ls s' F E. destruct (few_steps n ls s s' R F E) as [R' L]. split; [lia|]. intro Q. destruct (at_rest_lemma n s' R' Q) as (A & B & C). auto.
Qed.
Lemma alive_quiet n s : sreachable alive n s -> sreachable quiet n s.
Proof. intro R. induction R as [|s l s' R IH A E]; [constructor|]. econstructor; [exact IH|apply A|exact E]. Qed.
Lemma alive_stop n s : sreachable alive n s -> stop s = false /\ manager s <> MEnded /\ forall t p, nth_error (clients s) t = Some p -> match p with DLock | DNotify | DJoin | DDone => False | _ => True end.
Proof.
  intro R. induction R as [|s l s' R (H1 & H2 & H3) A E].
  - split; [reflexivity|]. split; [discriminate|]. intros t p H. apply nth_all in H. subst p. exact Logic.I.
  - destruct A as [_ A]. crack E; try (match goal with Hp : nth_error (clients s) ?t = Some ?p |- _ => pose proof (H3 t _ Hp) as K; cbn in K end; try contradiction); try (exfalso; eapply A; reflexivity);
      try discriminate H1; (split; [assumption|]; split; [congruence|]; try exact H3); intros u q Hu; apply nth_upd in Hu as [[-> ->]|[_ Hu]]; try exact Logic.I; exact (H3 u q Hu).
Qed.
Lemma dispatched_lemma : forall n s, sreachable alive n s -> at_rest s -> ~ In VLost (history s) -> (number arrival (history s) < W)%N -> number dispatch (history s) = number arrival (history s).
Proof.
  intros n s R Q L F. pose proof (alive_quiet _ _ R) as R'. destruct (at_rest_lemma n s R' Q) as (_ & K & [M|M]); [|destruct (alive_stop _ _ R) as (_ & N & _); contradiction].
  assert (Ra : sreachable anything n s) by (clear - R; induction R; [constructor|econstructor; [eassumption|exact Logic.I|eassumption]]).
  destruct (not_lost_lemma n s Ra M K L) as [k H]. assert (k = 0%N) by nia. subst k. lia.
Qed.
