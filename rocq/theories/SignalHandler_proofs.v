(** Proofs about signal handlers. *)
From Coq Require Import Sorted ZifyBool ZifyNat ZifyN.
From Verif Require Import Signal_model Signal_spec Signal_proofs.
Local Arguments N.ltb : simpl never.
Local Arguments N.eqb : simpl never.
Local Arguments N.modulo : simpl never.
Local Arguments N.add : simpl never.
Local Arguments W : simpl never.

Lemma step_own_raw s l s' : own_raw s -> no_unregister l -> sstep s l = Some s' -> own_raw s'.
Proof.
  intros I A E. unfold own_raw in *. crack E; try exact I; intros u p Hu; apply nth_upd in Hu as [[-> ->]|[_ Hu]]; try exact (I _ _ Hu); try exact Logic.I.
  exact A.
Qed.

Lemma fresh_id s : tables s -> ids s -> (number registration (history s) + 1 < W)%N -> look (callbacks s) ((last_id s + 1) mod W)%N = None.
Proof.
  intros [S _] I B. destruct (I ltac:(lia)) as [I1 I2]. destruct (look _ _) as [g|] eqn:G; [|reflexivity]. apply (look_in _ _ _ S) in G. specialize (I2 _ _ G).
  rewrite N.mod_small in I2 by lia. lia.
Qed.

Lemma put_other s h f : tables s -> ids s -> (number registration (history s) + 1 < W)%N -> f <> Of h ->
  forall id, look (map_put (callbacks s) ((last_id s + 1) mod W)%N f) id = Some (Of h) <-> look (callbacks s) id = Some (Of h).
Proof.
  intros T I B D id. rewrite put_look. destruct (N.eqb_spec ((last_id s + 1) mod W) id) as [<-|]; [|reflexivity].
  rewrite (fresh_id _ T I B). split; [intro H; injection H as H; contradiction|discriminate].
Qed.

Ltac other := intros h0 D; sf; rewrite ?(proj2 (Nat.eqb_neq _ _) D); cbn [emutex is_set in_manager callback_id with_e with_i with_set with_manager with_id last_set crit];
  rewrite ?(proj2 (Nat.eqb_neq _ _) (not_eq_sym D)); first [reflexivity|split; [reflexivity|apply same_refl] |split; [reflexivity|repeat split; auto; cbn [last_set]; rewrite (proj2 (Nat.eqb_neq _ _) (not_eq_sym D)); reflexivity] ].

Ltac hsf := sf; rewrite ?Nat.eqb_refl in *; cbn [emutex is_set in_manager callback_id with_e with_i with_set with_manager with_id phase] in *.
(** a thread in a function of [h] has its mutex *)
Lemma crit_locked s t p h : mutexes s -> nth_error (clients s) t = Some p -> crit h p = true -> emutex (hs s h) = true.
Proof.
  intros I Hp Hc. destruct (I h) as [I1 _]. pose proof (number_ge (fun x => b2n (crit h x)) _ _ _ Hp) as G. cbn beta in G. rewrite Hc in G.
  destruct (emutex (hs s h)); [reflexivity|]. cbn [b2n] in *. lia.
Qed.
Ltac locked := hsf; match goal with M : mutexes ?s, H : nth_error (clients ?s) ?t = Some _ |- emutex (hs ?s ?h) = false -> _ => rewrite (crit_locked _ _ _ h M H (Nat.eqb_refl h)); discriminate end.

Lemma step_kept s l s' : SInv s -> mutexes s -> ids s -> own_raw s -> (number registration (history s') < W)%N -> kept s -> sstep s l = Some s' -> kept s'.
Proof.
  intros [_ T _] M I O B K E.
  crack E; rewrite ?number_cons in B; cbn [registration] in B.
  all: try (apply (kept_same s); [exact K|intro h0; sf; try match goal with |- context [?a =? ?b] => destruct (Nat.eqb_spec a b) as [->|?] end; split; try reflexivity; try apply same_refl; repeat split; auto; fail
     |intros u p h0 Hu Hc; first [exact Hu|apply nth_upd in Hu as [[-> ->]|[_ Hu]]; [discriminate Hc|exact Hu]]]).
  - (* register_callback by a thread *)
    pose proof (O _ _ Heqo) as Of'. destruct f as [k|h']; [|destruct Of'].
    apply (kept_same s); [exact K| |intros u p h0 Hu Hc; apply nth_upd in Hu as [[-> ->]|[_ Hu]]; [discriminate Hc|exact Hu]].
    intro h0. split; [reflexivity|]. split; [reflexivity|]. split; [reflexivity|]. split; [reflexivity|]. split; [|reflexivity].
    apply put_other; [exact T|exact I|lia|discriminate].
  - destruct (O _ _ Heqo).
  - (* SLock *)
    apply (kept_step s _ t h (SSet h)); [exact K|reflexivity|other|other|exact (alone_free _ _ _ M Heqb)|hsf; discriminate|].
    intros _. destruct (K h) as [K1 _]. specialize (K1 Heqb). hsf. exact K1.
  - (* SSet, set before *)
    pose proof (proj2 (K h) _ _ Heqo (Nat.eqb_refl h)) as (P1 & P2 & P3).
    apply (kept_step s _ t h (SUnlock h)); [exact K|reflexivity|other|other|exact (alone_crit _ _ _ _ M Heqo (Nat.eqb_refl h))|locked|].
    intros _. hsf. rewrite Heqb0 in *. rewrite P2 in *. auto.
  - pose proof (proj2 (K h) _ _ Heqo (Nat.eqb_refl h)) as (P1 & P2 & P3).
    apply (kept_step s _ t h (SFlag h)); [exact K|reflexivity|other|other|exact (alone_crit _ _ _ _ M Heqo (Nat.eqb_refl h))|locked|].
    intros _. hsf. rewrite Heqb0 in *. rewrite P2 in *. auto.
  - pose proof (proj2 (K h) _ _ Heqo (Nat.eqb_refl h)) as (P1 & P2 & P3). congruence.
  - pose proof (proj2 (K h) _ _ Heqo (Nat.eqb_refl h)) as (P1 & P2 & P3).
    apply (kept_step s _ t h (SRegister h)); [exact K|reflexivity|other|other|exact (alone_crit _ _ _ _ M Heqo (Nat.eqb_refl h))|locked|].
    intros _. hsf. auto.
  - (* SRegister *)
    pose proof (proj2 (K h) _ _ Heqo (Nat.eqb_refl h)) as (P1 & P2 & P3).
    apply (kept_step s _ t h (SUnlock h)); [exact K|reflexivity| |other|exact (alone_crit _ _ _ _ M Heqo (Nat.eqb_refl h))|locked|].
    + intros h0 D. sf. rewrite ?(proj2 (Nat.eqb_neq _ _) D). split; [reflexivity|]. split; [reflexivity|]. split; [reflexivity|]. split; [reflexivity|]. split; [|reflexivity].
      apply put_other; [exact T|exact I|lia|congruence].
    + intros _. hsf. split; [exact P1|]. split; [exact P2|]. intro id. rewrite put_look. cbn [callback_id with_id].
      destruct (N.eqb_spec ((last_id s + 1) mod W) id) as [<-|D]; [tauto|]. split; [intro Q; apply P3 in Q as [Q _]; discriminate Q|intros [_ Q]; congruence].
  - (* SUnlock *)
    pose proof (proj2 (K h) _ _ Heqo (Nat.eqb_refl h)) as (P1 & P2 & P3).
    apply (kept_step s _ t h CIdle); [exact K|reflexivity|other|other|exact (alone_crit _ _ _ _ M Heqo (Nat.eqb_refl h))| |discriminate].
    intros _. hsf. unfold resting. cbn [last_set]. rewrite Nat.eqb_refl. hsf. rewrite P1, P2. auto.
  - (* ULock *)
    apply (kept_step s _ t h (UClear h)); [exact K|reflexivity|other|other|exact (alone_free _ _ _ M Heqb)|hsf; discriminate|].
    intros _. destruct (K h) as [K1 _]. specialize (K1 Heqb). hsf. exact K1.
  - (* UClear, set *)
    pose proof (proj2 (K h) _ _ Heqo (Nat.eqb_refl h)) as (P1 & P2 & P3).
    apply (kept_step s _ t h (UFlag h)); [exact K|reflexivity|other|other|exact (alone_crit _ _ _ _ M Heqo (Nat.eqb_refl h))|locked|].
    intros _. hsf. rewrite Heqb in P2. rewrite P2 in *. auto.
  - pose proof (proj2 (K h) _ _ Heqo (Nat.eqb_refl h)) as (P1 & P2 & P3).
    apply (kept_step s _ t h (UUnlock h)); [exact K|reflexivity|other|other|exact (alone_crit _ _ _ _ M Heqo (Nat.eqb_refl h))|locked|].
    intros _. hsf. rewrite Heqb in P2. rewrite P2 in *. auto.
  - pose proof (proj2 (K h) _ _ Heqo (Nat.eqb_refl h)) as (P1 & P2 & P3).
    apply (kept_step s _ t h (UUnregister h)); [exact K|reflexivity|other|other|exact (alone_crit _ _ _ _ M Heqo (Nat.eqb_refl h))|locked|].
    intros _. hsf. auto.
  - pose proof (proj2 (K h) _ _ Heqo (Nat.eqb_refl h)) as (P1 & P2 & P3). congruence.
  - (* UUnregister *)
    pose proof (proj2 (K h) _ _ Heqo (Nat.eqb_refl h)) as (P1 & P2 & P3). destruct T as [S T].
    apply (kept_step s _ t h (UUnlock h)); [exact K|reflexivity| |other|exact (alone_crit _ _ _ _ M Heqo (Nat.eqb_refl h))|locked|].
    + intros h0 D. sf. split; [reflexivity|]. split; [reflexivity|]. split; [reflexivity|]. split; [reflexivity|]. split; [|reflexivity].
      intro id. rewrite erase_look by exact S. destruct (N.eqb_spec (callback_id (hs s h)) id) as [<-|]; [|reflexivity].
      split; [discriminate|]. intro Q. rewrite (proj2 (P3 _) (conj eq_refl eq_refl)) in Q. congruence.
    + intros _. hsf. split; [exact P1|]. split; [exact P2|]. intro id. rewrite erase_look by exact S.
      destruct (N.eqb_spec (callback_id (hs s h)) id) as [<-|D]; [split; [discriminate|intros [Q _]; discriminate Q]|].
      split; [intro Q; apply P3 in Q as [_ Q]; congruence|intros [Q _]; discriminate Q].
  - pose proof (proj2 (K h) _ _ Heqo (Nat.eqb_refl h)) as (P1 & P2 & P3). exfalso.
    assert (Q : map_has (callbacks s) (callback_id (hs s h)) = true) by (apply has_look; rewrite (proj2 (P3 _) (conj eq_refl eq_refl)); discriminate). congruence.
  - (* UUnlock *)
    pose proof (proj2 (K h) _ _ Heqo (Nat.eqb_refl h)) as (P1 & P2 & P3).
    apply (kept_step s _ t h CIdle); [exact K|reflexivity|other|other|exact (alone_crit _ _ _ _ M Heqo (Nat.eqb_refl h))| |discriminate].
    intros _. hsf. unfold resting. cbn [last_set]. rewrite Nat.eqb_refl. hsf. rewrite P1, P2. auto.
Qed.

Lemma step_number s l s' : sstep s l = Some s' -> (number registration (history s) <= number registration (history s'))%N.
Proof. intro E. destruct (step_grows _ _ _ E) as [G|[e G]]; rewrite G; [lia|]. rewrite number_cons. lia. Qed.

Lemma reach_own_raw n s : sreachable no_unregister n s -> own_raw s.
Proof.
  intro R. induction R as [|s l s' R IH A E]; [|exact (step_own_raw _ _ _ IH A E)].
  intros t p H. cbn [sinit clients] in H. apply nth_all in H. subst p. exact Logic.I.
Qed.

Lemma reach_kept n s : sreachable no_unregister n s -> (number registration (history s) < W)%N -> kept s.
Proof.
  intro R. induction R as [|s l s' R IH A E]; intro B.
  - intro h. split; [intros _; split; [reflexivity|]; split; [reflexivity|]; intro id; split; [discriminate|intros [Q _]; discriminate Q]|].
    intros t p H Hc. cbn [sinit clients] in H. apply nth_all in H. subst p. discriminate Hc.
  - pose proof (step_number _ _ _ E). exact (step_kept _ _ _ (reach_sinv _ _ _ R) (reach_mutexes _ _ _ R) (reach_ids _ _ _ R) (reach_own_raw _ _ R) B (IH ltac:(lia)) E).
Qed.

Lemma registered_while_set : forall n s h, sreachable no_unregister n s -> (number registration (history s) < W)%N ->
  (forall t p, nth_error (clients s) t = Some p -> changing h p = false) ->
  if last_set h (history s) then exists id, forall id', registered (history s) id' = Some (Of h) <-> id' = id
  else forall id, registered (history s) id <> Some (Of h).
Proof.
  intros n s h R B C. pose proof (reach_kept _ _ R B h) as [K _]. destruct (reach_sinv _ _ _ R) as [_ [S T] _]. destruct (reach_mutexes _ _ _ R h) as [M _].
  assert (F : emutex (hs s h) = false).
  { destruct (emutex (hs s h)); [|reflexivity]. cbn [b2n] in M. exfalso.
    assert (Z : number_of (fun p => b2n (crit h p)) (clients s) = 0). { apply number_zero. intros i x Hx. specialize (C _ _ Hx). destruct x; cbn [crit changing] in *; try reflexivity; rewrite C; reflexivity. } lia. }
  destruct (K F) as (K1 & K2 & K3). rewrite <- K1, <- K2. unfold reg in K3. destruct (in_manager (hs s h)).
  - exists (callback_id (hs s h)). intro id'. rewrite <- T, K3. tauto.
  - intros id Q. rewrite <- T in Q. apply K3 in Q as [Q _]. discriminate Q.
Qed.

Lemma no_throw : forall n s t id, sreachable no_unregister n s -> (number registration (history s) < W)%N -> ~ In (VThrow t id) (history s).
Proof.
  intros n s t id R. induction R as [|s l s' R IH A E]; intros B; [intros []|]. pose proof (step_number _ _ _ E) as G. specialize (IH ltac:(lia)).
  pose proof (reach_kept _ _ R ltac:(lia)) as K. pose proof (reach_own_raw _ _ R) as O.
  crack E; try exact IH; try (intros [Q|Q]; [discriminate Q|exact (IH Q)]); try (destruct (O _ _ Heqo)).
  intros _. pose proof (proj2 (K h) _ _ Heqo (Nat.eqb_refl h)) as (P1 & P2 & P3).
  assert (Q : map_has (callbacks s) (callback_id (hs s h)) = true) by (apply has_look; rewrite (proj2 (P3 _) (conj eq_refl eq_refl)); discriminate). congruence.
Qed.

(** a function that is being called is registered; a callback that runs is set *)
Definition current (s : sstate) : Prop := forall h, in_call_of h (manager s) = true -> exists id, look (callbacks s) id = Some (Of h).
Definition set_running (s : sstate) : Prop := forall h, imutex (hs s h) = true -> is_set (hs s h) = true.

Lemma step_current s l s' : SInv s -> current s -> sstep s l = Some s' -> current s'.
Proof.
  intros [[_ L] [S _] C] I E. unfold current in *. crack E; repeat match goal with H : manager s = _ |- _ => rewrite H in * end; cbn [holds_cb in_call_of] in *;
    try exact I; try (intros h0 Q; discriminate Q).
  all: try (intros h0 Q; specialize (I h0); destruct (manager s) as [| | | | | | | | | | |?|? ?|[] ?|[] ?|]; cbn [in_call_of holds_cb] in *; try discriminate Q; try congruence; exact (I Q)).
  intros h0 Q. apply Nat.eqb_eq in Q as ->. unfold calling in C. rewrite Heqm in C. destruct (C eq_refl) as (mid & older & _ & _ & H). cbn [rest_of] in H. eexists. apply look_in; [exact S|]. rewrite <- H. apply in_or_app. right. left. reflexivity.
Qed.

Lemma step_set_running s l s' : set_running s -> sstep s l = Some s' -> set_running s'.
Proof.
  intros I E. unfold set_running in *. crack E; try exact I; intro h0; specialize (I h0);
    try match goal with |- context [?a =? ?h] => destruct (Nat.eqb_spec a h) as [->|?D] end;
    cbn [emutex imutex is_set in_manager callback_id with_e with_i with_set with_manager with_id] in *; congruence || (intro; auto; congruence).
Qed.

Lemma reach_running allowed n s : sreachable allowed n s -> current s /\ set_running s.
Proof.
  intro R. induction R as [|s l s' R [IH1 IH2] A E].
  - split; [intros h Q; discriminate Q|intros h Q; discriminate Q].
  - split; [exact (step_current _ _ _ (reach_sinv _ _ _ R) IH1 E)|exact (step_set_running _ _ _ IH2 E)].
Qed.

(** when unset_callback returns *)
Lemma unset_lemma : forall n s l s' t h, sreachable no_unregister n s -> no_unregister l -> sstep s l = Some s' -> (number registration (history s') < W)%N ->
  history s' = VUnset t h :: history s ->
  in_call_of h (manager s') = false /\ (forall u, nth_error (clients s') u <> Some (EIn h)) /\ forall id, registered (history s') id <> Some (Of h).
Proof.
  intros n s l s' t h R A E B H. assert (R' : sreachable no_unregister n s') by (econstructor; [exact R|exact A|exact E]).
  pose proof (step_number _ _ _ E) as G. pose proof (reach_kept _ _ R ltac:(lia)) as K.
  assert (L : forall (e : sevent) es, es <> e :: es) by (intros e es Q; apply (f_equal (@length _)) in Q; cbn in Q; lia).
  assert (P : nth_error (clients s) t = Some (UUnlock h) /\ callbacks s' = callbacks s /\ is_set (hs s' h) = is_set (hs s h) /\ history s' = VUnset t h :: history s).
  { clear A R R' B G K. crack E; try (destruct (L _ _ H)); try discriminate H. injection H as <- <-. rewrite Nat.eqb_refl. auto. }
  destruct P as (P1 & P2 & P3 & P4). destruct (proj2 (K h) _ _ P1 (Nat.eqb_refl h)) as (F1 & F2 & F3).
  destruct (reach_running _ _ _ R') as [C' S']. destruct (reach_sinv _ _ _ R') as [_ [_ T'] _].
  assert (N : forall id, look (callbacks s') id <> Some (Of h)) by (intros id Q; rewrite P2 in Q; apply F3 in Q as [Q _]; discriminate Q).
  split; [|split].
  - destruct (in_call_of h (manager s')) eqn:Q; [|reflexivity]. destruct (C' _ Q) as [id Hid]. destruct (N _ Hid).
  - intros u Hu. destruct (reach_mutexes _ _ _ R' h) as [_ M]. pose proof (number_ge (fun x => b2n (running h x)) _ _ _ Hu) as Z. cbn [running] in Z. rewrite Nat.eqb_refl in Z. cbn [b2n] in Z.
    destruct (imutex (hs s' h)) eqn:Q; [|cbn [b2n] in M; lia]. specialize (S' _ Q). congruence.
  - intros id Q. rewrite <- T' in Q. exact (N _ Q).
Qed.

Lemma registered_since mid ev id f : registered (mid ++ ev) id = Some f -> registered ev id <> Some f -> exists t, In (VRegistered t id f) mid.
Proof.
  induction mid as [|e mid IH]; intros H D; [destruct (D H)|].
  assert (IH' : registered (mid ++ ev) id = Some f -> exists t, In (VRegistered t id f) (e :: mid)) by (intro Q; destruct (IH Q D) as [t Ht]; exists t; right; exact Ht).
  cbn [app registered] in H. destruct e; try exact (IH' H).
  - destruct (N.eqb_spec id0 id) as [->|]; [injection H as ->; exists t; left; reflexivity|exact (IH' H)].
  - destruct (N.eqb id0 id); [discriminate H|exact (IH' H)].
Qed.

(** after unset_callback returned the handler is called only if it was set again *)
Lemma not_called_lemma : forall n s id h mid t before, sreachable no_unregister n s -> (number registration (history s) < W)%N ->
  moment s (VCall id (Of h)) (mid ++ VUnset t h :: before) -> exists u, In (VRegistered u id (Of h)) mid.
Proof.
  intros n s id h mid t before R B M.
  assert (RA : sreachable anything n s) by (clear M B; induction R; econstructor; eauto; exact Logic.I).
  pose proof (call_lemma _ _ _ _ _ RA M) as C.
  assert (M2 : moment s (VUnset t h) before) by (destruct M as [newer M]; exists (newer ++ VCall id (Of h) :: mid); rewrite M, <- app_assoc; reflexivity).
  destruct (moment_step _ _ _ _ _ R M2) as (s1 & l & s2 & R1 & A1 & E & <- & H).
  assert (B2 : (number registration (history s2) < W)%N).
  { rewrite H. destruct M2 as [nw M2]. rewrite M2 in B. unfold number in *. rewrite filter_app, app_length in B. lia. }
  destruct (unset_lemma _ _ _ _ _ _ R1 A1 E B2 H) as (_ & _ & N). rewrite H in N.
  exact (registered_since _ _ _ _ C (N id)).
Qed.

(** ** No deadlock *)
Definition no_nested (s : sstate) : Prop := forall f r, manager s <> MNested f r.
Lemma step_no_nested s l s' : no_nested s -> quiet l -> sstep s l = Some s' -> no_nested s'.
Proof. intros I Q E. unfold no_nested, quiet in *. crack E; intros f0 r0; try discriminate; try congruence; apply I. Qed.

Lemma number_some {A} (f : A -> bool) l : number_of (fun x => b2n (f x)) l <> 0 -> exists i x, nth_error l i = Some x /\ f x = true.
Proof.
  induction l as [|y l IH]; intro H; [destruct (H eq_refl)|]. destruct (f y) eqn:F; [exists 0, y; auto|].
  destruct IH as (i & x & Hi & Hx); [|exists (S i), x; auto]. intro Z. apply H. unfold number_of in *. cbn [fold_right]. rewrite F. exact Z.
Qed.

Lemma no_deadlock_lemma : forall n s t p, sreachable quiet n s -> nth_error (clients s) t = Some p -> inside p = true ->
  exists l s', own_step l /\ sstep s l = Some s'.
Proof.
  intros n s t p R Hp Hin.
  assert (Q : no_nested s) by (clear Hp Hin; induction R as [|s l s' R IH A E]; [intros f r; discriminate|exact (step_no_nested _ _ _ IH A E)]).
  destruct (reach_sinv _ _ _ R) as [[L1 L2] _ _]. pose proof (reach_mutexes _ _ _ R) as M. destruct (reach_ending _ _ _ R) as (_ & _ & D).
  (* a thread running a callback of a signal handler can go on *)
  assert (RI : forall h, imutex (hs s h) = true -> mrunning h (manager s) = false -> exists l s', own_step l /\ sstep s l = Some s').
  { intros h H1 H2. destruct (M h) as [_ Mh]. rewrite H1, H2 in Mh. cbn [b2n] in Mh. destruct (number_some (running h) (clients s)) as (u & q & Hu & Hq); [lia|].
    destruct q; try discriminate Hq. exists (Run u). cbn [sstep]. rewrite Hu. eexists. split; [exact Logic.I|reflexivity]. }
  destruct (mstep s) as [s'|] eqn:EM; [exists Manager, s'; split; [exact Logic.I|exact EM]|].
  assert (MS : manager s = MSleep \/ manager s = MEnded \/ exists h, imutex (hs s h) = true /\ mrunning h (manager s) = false).
  { unfold mstep in EM. cbv zeta in EM. rewrite L1, L2 in EM. destruct (manager s) as [| | | | | | | | | | |[|[? []] ?]|h r|[] ?|? ?|] eqn:P; cbn [holds_cv holds_cb] in EM; try discriminate EM; auto.
    - right. right. exists h. split; [|reflexivity]. destruct (imutex (hs s h)); [reflexivity|]. destruct (is_set (hs s h)); discriminate EM.
    - destruct (Q _ _ P). }
  destruct MS as [MS|[MS|(h & H1 & H2)]]; [| |exact (RI _ H1 H2)].
  all: rewrite MS in L1, L2; cbn [holds_cv holds_cb] in L1, L2;
    assert (RI' : forall h, imutex (hs s h) = true -> exists l s', own_step l /\ sstep s l = Some s') by (intros h H; apply (RI h H); rewrite MS; reflexivity);
    assert (RC : forall h u q, nth_error (clients s) u = Some q -> crit h q = true -> exists l s', own_step l /\ sstep s l = Some s').
  1, 3: intros h u q Hu Hq; destruct (imutex (hs s h)) eqn:IM; [exact (RI' _ IM)|]; destruct q; try discriminate Hq; apply Nat.eqb_eq in Hq as ->;
      exists (Run u); cbn [sstep]; rewrite Hu; cbn [cstep do_register]; rewrite ?L2, ?IM;
      try match goal with |- context [is_set ?x] => destruct (is_set x) end; eexists; (split; [exact Logic.I|reflexivity]).
  all: assert (RE : forall h, emutex (hs s h) = true -> exists l s', own_step l /\ sstep s l = Some s') by
    (intros h H; destruct (M h) as [Mh _]; rewrite H in Mh; cbn [b2n] in Mh; destruct (number_some (crit h) (clients s)) as (u & q & Hu & Hq); [lia|exact (RC _ _ _ Hu Hq)]).
  all: destruct p; try discriminate Hin; try (apply (RC h _ _ Hp); cbn [crit]; apply Nat.eqb_refl);
    try (destruct (emutex (hs s h)) eqn:EM'; [exact (RE _ EM')|]); try (destruct (imutex (hs s h)) eqn:IM; [exact (RI' _ IM)|]).
  all: try (specialize (D _ _ Hp); congruence).
  all: exists (Run t); cbn [sstep]; rewrite Hp; cbn [cstep do_register]; rewrite ?L1, ?L2, ?EM', ?IM, ?MS; try match goal with |- context [if is_set ?x then _ else _] => destruct (is_set x) end;
    eexists; (split; [exact Logic.I|reflexivity]).
Qed.

(** ** A callback that calls the manager *)
Definition dead (f : fn) (rest : list (N * fn)) (k : N) (s : sstate) : Prop :=
  manager s = MNested f rest /\ cb_locked s = true /\ number registration (history s) = k /\ (forall t, ~ In (VDestroyed t) (history s)).
Lemma step_dead f rest k s l s' : dead f rest k s -> sstep s l = Some s' -> dead f rest k s'.
Proof.
  intros (D1 & D2 & D3 & D4) E. unfold dead. crack E; rewrite ?number_cons; cbn [registration]; rewrite ?N.add_0_l; try congruence;
    (split; [congruence|]; split; [exact D2|]; split; [exact D3|]; intro t0; first [exact (D4 t0)|intros [X|X]; [discriminate X|exact (D4 _ X)]]).
Qed.
Lemma steps_dead f rest k ls : forall s s', dead f rest k s -> ssteps s ls = Some s' -> dead f rest k s'.
Proof.
  induction ls as [|l ls IH]; intros s s' D E; cbn [ssteps] in E; [injection E as <-; exact D|].
  destruct (sstep s l) as [s0|] eqn:E0; [|discriminate E]. exact (IH _ _ (step_dead _ _ _ _ _ _ D E0) E).
Qed.

Definition nested_run : list slabel := [Call 0 (Register 7); Run 0; Arrive; Notify; Manager; Manager; Manager; Manager; Manager; Manager; Manager; Manager; Nested].
Lemma nested_refute : exists ls s, ssteps (sinit 1) ls = Some s /\ number registration (history s) = 1%N /\
  forall ls s', ssteps s ls = Some s' -> manager s' = MNested (Raw 7) [] /\ number registration (history s') = 1%N /\ forall t, ~ In (VDestroyed t) (history s').
Proof.
  exists nested_run. destruct (ssteps (sinit 1) nested_run) as [s|] eqn:E; [|vm_compute in E; discriminate]. exists s. split; [reflexivity|]. vm_compute in E. injection E as <-. split; [reflexivity|].
  intros ls s' E'. assert (D : dead (Raw 7) [] 1 s').
  { apply (steps_dead _ _ _ _ _ _) with (2 := E'). split; [reflexivity|]. split; [reflexivity|]. split; [reflexivity|]. intros t H. cbn [history In] in H. intuition discriminate. }
  destruct D as (D1 & D2 & D3 & D4). auto.
Qed.

(** the destructor never waits for a thread that sleeps *)
Lemma join_awake : forall n s t, sreachable anything n s -> nth_error (clients s) t = Some DJoin -> manager s <> MSleep.
Proof. intros n s t R H. destruct (reach_ending _ _ _ R) as (_ & _ & D). exact (D _ _ H). Qed.

(** an identifier unregistered by another thread: unset_callback of the handler throws *)
Definition stolen_run : list slabel :=
  [Call 0 (SetCallback 0); Run 0; Run 0; Run 0; Run 0; Run 0; Call 1 (Unregister 1); Run 1; Call 0 (UnsetCallback 0); Run 0; Run 0; Run 0; Run 0].
Lemma throw_refute : exists s, sreachable anything 2 s /\ In (VThrow 0 1) (history s).
Proof.
  destruct (ssteps (sinit 2) stolen_run) as [s|] eqn:E; [|vm_compute in E; discriminate]. exists s.
  split; [eapply ssteps_reach; [constructor| |exact E]; repeat constructor|]. vm_compute in E. injection E as <-. left. reflexivity.
Qed.
