From Verif Require Import Owner_model Owner_spec.

Local Arguments Nat.eqb : simpl never.
Local Arguments Nat.ltb : simpl never.

Definition one (b : bool) : nat := if b then 1 else 0.
Definition hold (c : nat) (p : mpc) : nat := match p with MCheckX c' | MCheckA c' | MRaw c' => one (c' =? c) | _ => 0 end.
Definition inside (c : nat) (p : mpc) : nat := match p with MIn _ c' _ | MHalf _ c' _ | MOut _ c' _ => one (c' =? c) | _ => 0 end.
Definition on (c : nat) (r : option nat) : nat := one (refers c r).
Definition total (s : mstate) (c : nat) : nat := number_of (on c) (guards s) + number_of (hold c) (mpcs s).

Lemma number_snoc {A} (f : A -> nat) l x : number_of f (l ++ [x]) = number_of f l + f x.
Proof. induction l as [|y l IH]; cbn; [unfold number_of; cbn; lia|]. unfold number_of in *. cbn. lia. Qed.
Lemma nth_snoc {A} (l : list A) x i y : nth_error (l ++ [x]) i = Some y -> nth_error l i = Some y \/ (i = length l /\ y = x).
Proof.
  intros H. destruct (Nat.lt_ge_cases i (length l)) as [L|L].
  - left. rewrite nth_error_app1 in H by exact L. exact H.
  - right. rewrite nth_error_app2 in H by exact L. destruct (i - length l) as [|j] eqn:E; [|destruct j; discriminate]. injection H as <-. split; [lia|reflexivity].
Qed.
Lemma nth_snoc_old {A} (l : list A) x i y : nth_error l i = Some y -> nth_error (l ++ [x]) i = Some y.
Proof. intros H. rewrite nth_error_app1; [exact H|]. apply nth_error_Some. congruence. Qed.
Lemma one_eqb c : one (c =? c) = 1.
Proof. rewrite Nat.eqb_refl. reflexivity. Qed.
Lemma put_same f c x : put f c x c = x.
Proof. unfold put. rewrite Nat.eqb_refl. reflexivity. Qed.
Lemma put_other f c x c' : c' <> c -> put f c x c' = f c'.
Proof. intros H. unfold put. apply Nat.eqb_neq in H. rewrite H. reflexivity. Qed.

(** ** The locks *)
Record bounds (s : mstate) : Prop := {
  b_ow : forall o c, nth_error (owners s) o = Some (Some c) -> c < made s;
  b_le : forall o c, nth_error (lessees s) o = Some (Some c) -> c < made s;
  b_gu : forall o c, nth_error (guards s) o = Some (Some c) -> c < made s;
  b_pc : forall t p c, nth_error (mpcs s) t = Some p -> pc_refers c p = true -> c < made s
}.
Record i1 (ex : bool) (k : nat -> nat) (s : mstate) : Prop := {
  i_b : bounds s;
  i_k : forall c, made s <= c -> k c = 0;
  i_cnt : forall c, c < made s -> total s c + k c <= sharing (cells s c);
  i_cntx : ex = true -> forall c, c < made s -> sharing (cells s c) <= total s c;
  i_ex1 : forall t p c, nth_error (mpcs s) t = Some p -> inside c p = 1 -> owned_by (cells s c) = Some t;
  i_ex2 : forall t c, c < made s -> owned_by (cells s c) = Some t -> exists p, nth_error (mpcs s) t = Some p /\ inside c p = 1;
  i_ex3 : forall c, c < made s -> owned_by (cells s c) <> None -> sharing (cells s c) = 0
}.

Definition same_inside (a b : list mpc) : Prop := forall u p, nth_error a u = Some p -> exists q, nth_error b u = Some q /\ forall c, inside c p = inside c q.

Lemma i1_gen ex k s s' : i1 ex k s -> made s' = made s -> bounds s' ->
  same_inside (mpcs s') (mpcs s) -> same_inside (mpcs s) (mpcs s') ->
  (forall c, owned_by (cells s' c) = owned_by (cells s c)) ->
  (forall c, c < made s -> owned_by (cells s c) <> None -> sharing (cells s' c) = sharing (cells s c)) ->
  (forall c, c < made s -> total s' c + sharing (cells s c) <= total s c + sharing (cells s' c)) ->
  (ex = true -> forall c, c < made s -> total s' c + sharing (cells s c) = total s c + sharing (cells s' c)) -> i1 ex k s'.
Proof.
  intros [B K C CX E1 E2 E3] M B' S1 S2 O S T TX. split; rewrite ?M; auto.
  - intros c L. specialize (C c L). specialize (T c L). lia.
  - intros E c L. specialize (CX E c L). specialize (TX E c L). lia.
  - intros t p c P I. destruct (S1 _ _ P) as (q & Q & H). rewrite O. apply (E1 t q); [exact Q|]. rewrite <- H. exact I.
  - intros t c L H. rewrite O in H. destruct (E2 t c L H) as (p & P & I). destruct (S2 _ _ P) as (q & Q & J). exists q. split; [exact Q|]. rewrite <- J. exact I.
  - intros c L H. rewrite O in H. rewrite S; auto.
Qed.

Lemma same_refl a : same_inside a a.
Proof. intros u p P. exists p. auto. Qed.
Lemma same_upd a t p p' : nth_error a t = Some p -> (forall c, inside c p' = inside c p) -> same_inside (upd a t p') a /\ same_inside a (upd a t p').
Proof.
  intros P H. split; intros u q Q.
  - apply nth_upd in Q. destruct Q as [[-> ->]|[N Q]]; [exists p|exists q]; auto.
  - destruct (Nat.eq_dec t u) as [<-|N].
    + exists p'. split; [eapply nth_upd_same; eauto|]. intros c. rewrite H. congruence.
    + exists q. split; [rewrite nth_upd_other by exact N; exact Q|auto].
Qed.

Lemma bounds_upd (l : list (option nat)) n i r : (forall o c, nth_error l o = Some (Some c) -> c < n) -> (forall c, r = Some c -> c < n) ->
  forall o c, nth_error (upd l i r) o = Some (Some c) -> c < n.
Proof. intros H R o c X. apply nth_upd in X. destruct X as [[_ X]|[_ X]]; [apply R; congruence|eauto]. Qed.
Lemma bounds_snoc (l : list (option nat)) n r : (forall o c, nth_error l o = Some (Some c) -> c < n) -> (forall c, r = Some c -> c < n) ->
  forall o c, nth_error (l ++ [r]) o = Some (Some c) -> c < n.
Proof. intros H R o c X. apply nth_snoc in X. destruct X as [X|[_ X]]; [eauto|apply R; congruence]. Qed.
Lemma bounds_pcs (l : list mpc) n t p : (forall u q c, nth_error l u = Some q -> pc_refers c q = true -> c < n) -> (forall c, pc_refers c p = true -> c < n) ->
  forall u q c, nth_error (upd l t p) u = Some q -> pc_refers c q = true -> c < n.
Proof. intros H R u q c X Y. apply nth_upd in X. destruct X as [[_ ->]|[_ X]]; eauto. Qed.

(** a thread moves outside the critical section *)
Lemma i1_go ex k s t p p' : i1 ex k s -> nth_error (mpcs s) t = Some p -> (forall c, inside c p' = inside c p) -> (forall c, hold c p' = hold c p) ->
  (forall c, pc_refers c p' = true -> c < made s) -> i1 ex k (mgo s t p').
Proof.
  intros I P HI HH HB. destruct (same_upd _ _ _ _ P HI) as [S1 S2].
  assert (T : forall c, total (mgo s t p') c = total s c).
  { intros c. unfold total. cbn. pose proof (number_upd (hold c) _ _ p' _ P). rewrite HH in H. lia. }
  eapply i1_gen; eauto; cbn; auto; try (intros; rewrite T; lia).
  destruct (i_b _ _ _ I) as [B1 B2 B3 B4]. split; cbn; auto. apply bounds_pcs; auto.
Qed.

Lemma i1_owners ex k s l : i1 ex k s -> (forall o c, nth_error l o = Some (Some c) -> c < made s) -> i1 ex k (mowners s l).
Proof.
  intros I H. eapply i1_gen; eauto using same_refl; cbn; auto; try (intros; unfold total; cbn; lia). destruct (i_b _ _ _ I) as [B1 B2 B3 B4]. split; cbn; auto.
Qed.
Lemma i1_lessees ex k s l : i1 ex k s -> (forall o c, nth_error l o = Some (Some c) -> c < made s) -> i1 ex k (mlessees s l).
Proof.
  intros I H. eapply i1_gen; eauto using same_refl; cbn; auto; try (intros; unfold total; cbn; lia). destruct (i_b _ _ _ I) as [B1 B2 B3 B4]. split; cbn; auto.
Qed.
Lemma i1_guards ex k s l : i1 ex k s -> (forall o c, nth_error l o = Some (Some c) -> c < made s) ->
  (forall c, number_of (on c) l <= number_of (on c) (guards s)) -> (ex = true -> forall c, number_of (on c) l = number_of (on c) (guards s)) -> i1 ex k (mguards s l).
Proof.
  intros I H L LX. eapply i1_gen; eauto using same_refl; cbn; auto.
  - destruct (i_b _ _ _ I) as [B1 B2 B3 B4]. split; cbn; auto.
  - intros c _. unfold total. cbn. specialize (L c). lia.
  - intros E c _. unfold total. cbn. specialize (LX E c). lia.
Qed.
Lemma i1_flags ex k s r m : i1 ex k s -> i1 ex k (mflags s r m).
Proof. intros [[B1 B2 B3 B4] K C CX E1 E2 E3]. split; cbn; auto. split; cbn; auto. Qed.
Lemma i1_say ex k s e : i1 ex k s -> i1 ex k (msay s e).
Proof. intros [[B1 B2 B3 B4] K C CX E1 E2 E3]. split; cbn; auto. split; cbn; auto. Qed.
(** the mutex of a cell does not change *)
Lemma i1_cell ex k s c x : i1 ex k s -> owned_by x = owned_by (cells s c) -> sharing x = sharing (cells s c) -> i1 ex k (mcell s c x).
Proof.
  intros I O S. assert (X : forall c', owned_by (cells (mcell s c x) c') = owned_by (cells s c') /\ sharing (cells (mcell s c x) c') = sharing (cells s c')).
  { intros c'. cbn. unfold put. destruct (Nat.eqb_spec c' c); subst; auto. }
  eapply i1_gen; eauto using same_refl; try (intros; apply X); try (intros; unfold total; destruct (X c0) as [_ ->]; cbn; lia); auto.
  destruct (i_b _ _ _ I) as [B1 B2 B3 B4]. split; cbn; auto.
Qed.
Lemma i1_new ex k s : i1 ex k s -> i1 ex k (mnew s).
Proof.
  intros [[B1 B2 B3 B4] K C CX E1 E2 E3].
  assert (Z : total s (made s) = 0).
  { unfold total. assert (G : number_of (on (made s)) (guards s) = 0).
    { apply number_zero. intros i [c'|] X; unfold on, refers; [|reflexivity]. apply B3 in X. destruct (Nat.eqb_spec c' (made s)); [lia|reflexivity]. }
    assert (H : number_of (hold (made s)) (mpcs s) = 0).
    { apply number_zero. intros i p X. pose proof (B4 i p (made s) X) as Y. destruct p; cbn in *; auto; destruct (Nat.eqb_spec c (made s)); cbn; auto; specialize (Y eq_refl); lia. }
    lia. }
  split; cbn [made mnew].
  - split; cbn; intros; eauto using Nat.lt_lt_succ_r.
  - intros c L. apply K. lia.
  - intros c L. change (total (mnew s) c) with (total s c). cbn. destruct (Nat.eq_dec c (made s)) as [->|N].
    + rewrite put_same, K, Z by lia. cbn. lia.
    + rewrite put_other by exact N. apply C. lia.
  - intros E c L. change (total (mnew s) c) with (total s c). cbn. destruct (Nat.eq_dec c (made s)) as [->|N].
    + rewrite put_same. cbn. lia.
    + rewrite put_other by exact N. apply CX; auto. lia.
  - intros t p c P I. cbn in *. rewrite put_other; [eauto|]. intros ->. assert (pc_refers (made s) p = true).
    { destruct p; cbn in *; try discriminate; destruct (c =? made s); cbn in *; auto; discriminate. }
    specialize (B4 _ _ _ P H). lia.
  - intros t c L. cbn. destruct (Nat.eq_dec c (made s)) as [->|N].
    + rewrite put_same. discriminate.
    + rewrite put_other by exact N. apply E2. lia.
  - intros c L. cbn. destruct (Nat.eq_dec c (made s)) as [->|N].
    + rewrite put_same. cbn. congruence.
    + rewrite put_other by exact N. apply E3. lia.
Qed.

Lemma i1_finish ex k s t o j : i1 ex k s -> (exists p, nth_error (mpcs s) t = Some p /\ (forall c, inside c p = 0) /\ forall c, hold c p = 0) -> i1 ex k (finish s t o j).
Proof.
  intros I (p & P & HI & HH). unfold finish. assert (J : i1 ex k (mgo s t MIdle)).
  { eapply i1_go; eauto; cbn; auto. intros; discriminate. }
  pose proof (i_b _ _ _ I) as [B1 B2 B3 B4].
  destruct j as [|[]|o'].
  - apply i1_say. exact J.
  - apply i1_say. exact J.
  - apply i1_say. apply i1_owners.
    + apply i1_new. exact J.
    + cbn. apply bounds_upd; [intros; eauto using Nat.lt_lt_succ_r|]. intros c [= <-]. lia.
  - cbn [mgo owners]. destruct (nth_error (owners s) o') as [r|] eqn:R; apply i1_say; auto. apply i1_owners; auto. cbn [mgo made].
    apply bounds_upd; [|discriminate]. apply bounds_upd; auto. intros c ->. eauto.
Qed.

(** lock_shared, and a guard comes into being *)
Lemma share_facts s c c' : owned_by (cells (share s c) c') = owned_by (cells s c') /\ sharing (cells (share s c) c') = sharing (cells s c') + one (c =? c').
Proof. unfold share. cbn. unfold put. rewrite (Nat.eqb_sym c' c). destruct (Nat.eqb_spec c c') as [<-|N]; cbn; split; auto; lia. Qed.
Lemma unshare_facts s c c' : sharing (cells s c) <> 0 ->
  owned_by (cells (unshare s c) c') = owned_by (cells s c') /\ sharing (cells (unshare s c) c') + one (c =? c') = sharing (cells s c') /\ made (unshare s c) = made s /\
  mpcs (unshare s c) = mpcs s /\ owners (unshare s c) = owners s /\ lessees (unshare s c) = lessees s /\ guards (unshare s c) = guards s /\
  misused (unshare s c) = misused s /\ present (cells (unshare s c) c') = present (cells s c') /\ destroyed (cells (unshare s c) c') = destroyed (cells s c').
Proof.
  intros H. unfold unshare. destruct (sharing (cells s c)) as [|n] eqn:E; [congruence|]. cbn. unfold put. rewrite (Nat.eqb_sym c' c).
  destruct (Nat.eqb_spec c c') as [<-|N]; cbn; repeat split; auto; lia.
Qed.

Lemma may_share_none x : may_share x = true -> owned_by x = None.
Proof. unfold may_share. destruct (owned_by x); [discriminate|reflexivity]. Qed.
Lemma may_own_none x : may_own x = true -> owned_by x = None /\ sharing x = 0.
Proof. unfold may_own. destruct (owned_by x); [discriminate|]. intros H. apply Nat.eqb_eq in H. auto. Qed.

(** a thread without lock takes a shared one and keeps the guard *)
Lemma i1_share_hold ex k s t p p' c : i1 ex k s -> nth_error (mpcs s) t = Some p -> may_share (cells s c) = true ->
  (forall c', inside c' p = 0) -> (forall c', inside c' p' = 0) -> (forall c', hold c' p = 0) -> (forall c', hold c' p' = one (c =? c')) ->
  (forall c', pc_refers c' p' = true -> c' < made s) -> i1 ex k (mgo (share s c) t p').
Proof.
  intros I P M I0 I1 H0 H1 HB. destruct (same_upd _ _ _ p' P) as [S1 S2]; [intros; rewrite I0, I1; reflexivity|].
  assert (T : forall c', total (mgo (share s c) t p') c' = total s c' + one (c =? c')).
  { intros c'. unfold total. cbn. pose proof (number_upd (hold c') _ _ p' _ P). rewrite H0, H1 in H. lia. }
  apply may_share_none in M.
  eapply i1_gen; eauto; cbn [mgo cells]; auto.
  - destruct (i_b _ _ _ I) as [B1 B2 B3 B4]. split; cbn; auto. apply bounds_pcs; auto.
  - intros c'. apply share_facts.
  - intros c' _ O. destruct (share_facts s c c') as [_ ->]. destruct (Nat.eqb_spec c c') as [<-|]; [congruence|]. cbn. lia.
  - intros c' _. rewrite T. destruct (share_facts s c c') as [_ ->]. lia.
  - intros _ c' _. rewrite T. destruct (share_facts s c c') as [_ ->]. lia.
Qed.
(** or gives the guard away *)
Lemma i1_share_guard ex k s t c : i1 ex k s -> nth_error (mpcs s) t = Some (MShare c) -> may_share (cells s c) = true ->
  i1 ex k (mgo (mguards (share s c) (guards s ++ [Some c])) t MIdle).
Proof.
  intros I P M. destruct (same_upd _ _ _ MIdle P) as [S1 S2]; [intros; reflexivity|].
  assert (T : forall c', total (mgo (mguards (share s c) (guards s ++ [Some c])) t MIdle) c' = total s c' + one (c =? c')).
  { intros c'. unfold total. cbn. rewrite number_snoc. pose proof (number_upd (hold c') _ _ MIdle _ P). unfold on at 2. cbn in *. lia. }
  apply may_share_none in M. pose proof (i_b _ _ _ I) as [B1 B2 B3 B4].
  eapply i1_gen; eauto; cbn [mgo mguards cells]; auto.
  - split; cbn; auto.
    + apply bounds_snoc; auto. intros c' [= <-]. apply (B4 _ _ c P). cbn. apply Nat.eqb_refl.
    + apply bounds_pcs; auto. cbn. discriminate.
  - intros c'. apply share_facts.
  - intros c' _ O. destruct (share_facts s c c') as [_ ->]. destruct (Nat.eqb_spec c c') as [<-|]; [congruence|]. cbn. lia.
  - intros c' _. rewrite T. destruct (share_facts s c c') as [_ ->]. lia.
  - intros _ c' _. rewrite T. destruct (share_facts s c c') as [_ ->]. lia.
Qed.
Lemma i1_give ex k s t c : i1 ex k s -> nth_error (mpcs s) t = Some (MCheckX c) -> i1 ex k (mgo (mguards s (guards s ++ [Some c])) t MIdle).
Proof.
  intros I P. destruct (same_upd _ _ _ MIdle P) as [S1 S2]; [intros; reflexivity|]. pose proof (i_b _ _ _ I) as [B1 B2 B3 B4].
  assert (T : forall c', total (mgo (mguards s (guards s ++ [Some c])) t MIdle) c' = total s c').
  { intros c'. unfold total. cbn. rewrite number_snoc. pose proof (number_upd (hold c') _ _ MIdle _ P). unfold on at 2. cbn in *. lia. }
  eapply i1_gen; eauto; cbn [mgo mguards cells]; auto; try (intros; rewrite T; lia). split; cbn; auto.
  - apply bounds_snoc; auto. intros c' [= <-]. apply (B4 _ _ c P). cbn. apply Nat.eqb_refl.
  - apply bounds_pcs; auto. cbn. discriminate.
Qed.

Lemma held_shared ex k s t p c : i1 ex k s -> nth_error (mpcs s) t = Some p -> hold c p = 1 -> sharing (cells s c) <> 0 /\ c < made s.
Proof.
  intros I P H. assert (L : c < made s).
  { apply (b_pc _ (i_b _ _ _ I) t p); auto. destruct p; cbn in *; try discriminate; destruct (c0 =? c); cbn in *; auto; discriminate. }
  split; [|exact L]. pose proof (i_cnt _ _ _ I c L) as C. pose proof (number_ge (hold c) _ _ _ P). unfold total in C. lia.
Qed.
Lemma guard_shared ex k s g c : i1 ex k s -> nth_error (guards s) g = Some (Some c) -> sharing (cells s c) <> 0 /\ c < made s.
Proof.
  intros I P. assert (L : c < made s) by exact (b_gu _ (i_b _ _ _ I) _ _ P).
  split; [|exact L]. pose proof (i_cnt _ _ _ I c L) as C. pose proof (number_ge (on c) _ _ _ P) as H. unfold on at 1, refers in H. rewrite one_eqb in H. unfold total in C. lia.
Qed.
Lemma i1_unhold ex k s t p p' c : i1 ex k s -> nth_error (mpcs s) t = Some p -> hold c p = 1 ->
  (forall c', inside c' p = 0) -> (forall c', inside c' p' = 0) -> (forall c', hold c' p = one (c =? c')) -> (forall c', hold c' p' = 0) ->
  (forall c', pc_refers c' p' = false) -> i1 ex k (mgo (unshare s c) t p').
Proof.
  intros I P HC I0 I1 H0 H1 HB. destruct (same_upd _ _ _ p' P) as [S1 S2]; [intros; rewrite I0, I1; reflexivity|].
  destruct (held_shared _ _ _ _ _ _ I P HC) as [NZ L]. pose proof (fun c' => unshare_facts s c c' NZ) as U.
  assert (T : forall c', total (mgo (unshare s c) t p') c' + one (c =? c') = total s c').
  { intros c'. unfold total. cbn. destruct (U c') as (_ & _ & _ & -> & _ & _ & -> & _). pose proof (number_upd (hold c') _ _ p' _ P). rewrite H0, H1 in H. lia. }
  pose proof (i_b _ _ _ I) as [B1 B2 B3 B4]. destruct (U c) as (_ & _ & UM & UP & UO & UL & UG & _).
  eapply i1_gen; eauto; cbn [mgo cells made mpcs]; rewrite ?UP; auto.
  - split; cbn; rewrite ?UM, ?UP, ?UO, ?UL, ?UG; auto. apply bounds_pcs; auto. intros c' X. rewrite HB in X. discriminate.
  - intros c'. apply U.
  - intros c' L' O. pose proof (i_ex3 _ _ _ I c' L' O) as Z. destruct (U c') as (_ & S & _). lia.
  - intros c' _. specialize (T c'). destruct (U c') as (_ & S & _). lia.
  - intros _ c' _. specialize (T c'). destruct (U c') as (_ & S & _). lia.
Qed.
Lemma i1_drop ex k s g c : i1 ex k s -> nth_error (guards s) g = Some (Some c) -> i1 ex k (mguards (unshare s c) (upd (guards s) g None)).
Proof.
  intros I P. destruct (guard_shared _ _ _ _ _ I P) as [NZ L]. pose proof (fun c' => unshare_facts s c c' NZ) as U.
  assert (T : forall c', total (mguards (unshare s c) (upd (guards s) g None)) c' + one (c =? c') = total s c').
  { intros c'. unfold total. cbn. destruct (U c') as (_ & _ & _ & -> & _). pose proof (number_upd (on c') _ _ None _ P) as H. unfold on at 2 4 in H. cbn in H. lia. }
  pose proof (i_b _ _ _ I) as [B1 B2 B3 B4]. destruct (U c) as (_ & _ & UM & UP & UO & UL & UG & _).
  eapply i1_gen; eauto; cbn [mguards cells made mpcs]; rewrite ?UP; auto using same_refl.
  - split; cbn; rewrite ?UM, ?UP, ?UO, ?UL, ?UG; auto. apply bounds_upd; auto. discriminate.
  - intros c'. apply U.
  - intros c' L' O. pose proof (i_ex3 _ _ _ I c' L' O) as Z. destruct (U c') as (_ & S & _). lia.
  - intros c' _. specialize (T c'). destruct (U c') as (_ & S & _). lia.
  - intros _ c' _. specialize (T c'). destruct (U c') as (_ & S & _). lia.
Qed.

(** the exclusive lock *)
Lemma i1_own ex k s t o c j : i1 ex k s -> nth_error (mpcs s) t = Some (MReset o c j) -> may_own (cells s c) = true ->
  i1 ex k (mgo (mcell s c (with_owner (cells s c) (Some t))) t (MIn o c j)).
Proof.
  intros [[B1 B2 B3 B4] K C CX E1 E2 E3] P M. apply may_own_none in M. destruct M as [M Z].
  assert (L : c < made s) by (apply (B4 _ _ c P); cbn; apply Nat.eqb_refl).
  assert (T : forall c', total (mgo (mcell s c (with_owner (cells s c) (Some t))) t (MIn o c j)) c' = total s c').
  { intros c'. unfold total. cbn. pose proof (number_upd (hold c') _ _ (MIn o c j) _ P). cbn in *. lia. }
  assert (S : forall c', sharing (put (cells s) c (with_owner (cells s c) (Some t)) c') = sharing (cells s c')).
  { intros c'. unfold put. destruct (Nat.eqb_spec c' c) as [->|]; reflexivity. }
  split; cbn [mgo mcell made cells mpcs].
  - split; cbn; auto. apply bounds_pcs; auto. intros c' X. cbn in X. apply Nat.eqb_eq in X. congruence.
  - exact K.
  - intros c' L'. rewrite T, S. auto.
  - intros X c' L'. rewrite T, S. auto.
  - intros u p c' Q I. apply nth_upd in Q. destruct Q as [[-> ->]|[N Q]].
    + cbn in I. destruct (Nat.eqb_spec c c') as [X|]; [|discriminate]. rewrite <- X, put_same. reflexivity.
    + specialize (E1 _ _ _ Q I). rewrite put_other; [exact E1|]. intros ->. congruence.
  - intros u c' L' H. destruct (Nat.eq_dec c' c) as [->|N].
    + rewrite put_same in H. cbn in H. injection H as <-. exists (MIn o c j). split; [eapply nth_upd_same; eauto|cbn; apply one_eqb].
    + rewrite put_other in H by exact N. destruct (E2 _ _ L' H) as (p & Q & I). exists p. split; [|exact I]. rewrite nth_upd_other; [exact Q|]. intros <-. rewrite P in Q. injection Q as <-. discriminate.
  - intros c' L' H. rewrite S. destruct (Nat.eq_dec c' c) as [->|N]; [exact Z|]. rewrite put_other in H by exact N. auto.
Qed.
Lemma i1_unown ex k s t o c j : i1 ex k s -> nth_error (mpcs s) t = Some (MOut o c j) ->
  i1 ex k (mgo (mcell s c (with_owner (cells s c) None)) t MIdle).
Proof.
  intros [[B1 B2 B3 B4] K C CX E1 E2 E3] P.
  assert (M : owned_by (cells s c) = Some t) by (apply (E1 t (MOut o c j)); [exact P|cbn; apply one_eqb]).
  assert (T : forall c', total (mgo (mcell s c (with_owner (cells s c) None)) t MIdle) c' = total s c').
  { intros c'. unfold total. cbn. pose proof (number_upd (hold c') _ _ MIdle _ P). cbn in *. lia. }
  assert (S : forall c', sharing (put (cells s) c (with_owner (cells s c) None) c') = sharing (cells s c')).
  { intros c'. unfold put. destruct (Nat.eqb_spec c' c) as [->|]; reflexivity. }
  split; cbn [mgo mcell made cells mpcs].
  - split; cbn; auto. apply bounds_pcs; auto. discriminate.
  - exact K.
  - intros c' L'. rewrite T, S. auto.
  - intros X c' L'. rewrite T, S. auto.
  - intros u p c' Q I. apply nth_upd in Q. destruct Q as [[-> ->]|[N Q]]; [discriminate|].
    specialize (E1 _ _ _ Q I). rewrite put_other; [exact E1|]. intros ->. congruence.
  - intros u c' L' H. destruct (Nat.eq_dec c' c) as [->|N]; [rewrite put_same in H; discriminate|].
    rewrite put_other in H by exact N. destruct (E2 _ _ L' H) as (p & Q & I). exists p. split; [|exact I]. rewrite nth_upd_other; [exact Q|]. intros <-. rewrite P in Q. injection Q as <-. cbn in I. destruct (Nat.eqb_spec c c'); [congruence|discriminate].
  - intros c' L' H. rewrite S. destruct (Nat.eq_dec c' c) as [->|N]; [rewrite put_same in H; cbn in H; congruence|]. rewrite put_other in H by exact N. auto.
Qed.

Lemma finish_idle s t o j : finish (mgo s t MIdle) t o j = finish s t o j.
Proof.
  assert (U : forall (l : list mpc), upd (upd l t MIdle) t MIdle = upd l t MIdle).
  { intros l. revert t. induction l as [|x l IH]; intros [|t]; cbn; f_equal; auto. }
  unfold finish, mgo. cbn. destruct j as [|[]|o']; cbn; rewrite ?U; reflexivity.
Qed.

Lemma upd_snoc_number (f : option nat -> nat) l g r : f None = 0 -> nth_error l g = Some r -> number_of f (upd l g None ++ [r]) = number_of f l.
Proof. intros Z H. rewrite number_snoc. pose proof (number_upd f _ _ None _ H). lia. Qed.
Lemma assign_number (f : option nat -> nat) l g g' q r : f None = 0 -> g <> g' -> nth_error l g = Some q -> nth_error l g' = Some r ->
  number_of f (upd (upd l g r) g' None) + f q = number_of f l.
Proof.
  intros Z N G G'. pose proof (number_upd f _ _ r _ G). assert (G2 : nth_error (upd l g r) g' = Some r) by (rewrite nth_upd_other by exact N; exact G').
  pose proof (number_upd f _ _ None _ G2). lia.
Qed.

Lemma i1_step ex k s l s' : i1 ex k s -> (ex = true -> no_overwrite s l) -> mstep s l = Some s' -> i1 ex k s'.
Proof.
  intros I OV E. pose proof (i_b _ _ _ I) as [B1 B2 B3 B4].
  destruct l as [|t o j|o|o|l|l|l|t l w|t|g|g|g g'|g|c]; cbn [mstep] in E.
  - injection E as <-. apply i1_owners; auto. apply bounds_snoc; auto. discriminate.
  - unfold call_reset in E. destruct (nth_error (mpcs s) t) as [[]|] eqn:P; try discriminate. destruct (nth_error (owners s) o) as [r|] eqn:O; [|discriminate].
    destruct (busy s o || _); [discriminate|].
    assert (F : i1 ex k (finish s t o j)) by (apply i1_finish; auto; exists MIdle; auto).
    destruct r as [c|]; [|injection E as <-; exact F]. destruct (present (cells s c)); injection E as <-; [|exact F].
    eapply i1_go; eauto. cbn. intros c' X. apply Nat.eqb_eq in X. subst. eauto.
  - destruct (nth_error (owners s) o) as [r|] eqn:O; [|discriminate]. destruct (busy s o); [discriminate|]. injection E as <-. apply i1_owners; auto.
    apply bounds_snoc; [apply bounds_upd; auto; discriminate|]. intros c ->. eauto.
  - destruct (nth_error (owners s) o) as [r|] eqn:O; [|discriminate]. destruct (busy s o); [discriminate|]. injection E as <-. apply i1_lessees; auto.
    apply bounds_snoc; auto. intros c ->. eauto.
  - destruct (nth_error (lessees s) l) as [r|] eqn:O; [|discriminate]. injection E as <-. apply i1_lessees; auto. apply bounds_snoc; auto. intros c ->. eauto.
  - destruct (nth_error (lessees s) l) as [r|] eqn:O; [|discriminate]. injection E as <-. apply i1_lessees; auto. apply bounds_upd; auto. discriminate.
  - unfold lessee_bool in E. destruct (nth_error (lessees s) l) as [[c|]|] eqn:O; [| |discriminate]; injection E as <-; apply i1_say; auto. apply i1_flags; auto.
  - unfold call_lock in E. destruct (nth_error (mpcs s) t) as [[]|] eqn:P; try discriminate. destruct (nth_error (lessees s) l) as [r|] eqn:O; [|discriminate].
    destruct r as [c|].
    + assert (L : forall c', (c =? c') = true -> c' < made s) by (intros c' X; apply Nat.eqb_eq in X; subst; eauto).
      destruct w; injection E as <-; (eapply i1_go; eauto).
    + destruct w; injection E as <-; try (apply i1_say; exact I). apply i1_guards; auto.
      * apply bounds_snoc; auto. discriminate.
      * intros c. rewrite number_snoc. cbn. lia.
      * intros _ c. rewrite number_snoc. cbn. lia.
  - unfold mrun in E. destruct (nth_error (mpcs s) t) as [p|] eqn:P; [|discriminate].
    assert (RB : forall c', pc_refers c' p = true -> c' < made s) by (intros; eauto).
    destruct p as [|o c j|o c j|o c j|o c j|c|c|c|c|c|c|c|c]; try discriminate.
    + destruct (may_own (cells s c)) eqn:M; [|discriminate]. injection E as <-. apply i1_own; auto.
    + destruct (present (cells s c)); injection E as <-; (eapply i1_go; [|exact P|reflexivity|reflexivity|exact RB]); auto. apply i1_cell; auto.
    + injection E as <-. eapply i1_go; [|exact P|reflexivity|reflexivity|exact RB]. apply i1_cell; auto.
    + injection E as <-. rewrite <- finish_idle. apply i1_finish.
      * pose proof (i1_unown _ _ _ _ _ _ _ I P) as U. pose proof (i1_owners _ _ _ (upd (owners s) o None) U) as V. apply V. cbn. apply bounds_upd; auto. discriminate.
      * exists MIdle. split; [cbn; eapply nth_upd_same; exact P|auto].
    + destruct (may_share (cells s c)) eqn:M; [|discriminate]. injection E as <-. apply i1_share_guard; auto.
    + destruct (may_share (cells s c)) eqn:M; [|discriminate]. injection E as <-. eapply i1_share_hold; eauto.
    + assert (I' : i1 ex k (read_reference s c)) by (apply i1_flags; exact I). cbn [read_reference cells mflags] in E.
      destruct (present (cells s c)); injection E as <-; apply i1_say.
      * exact (i1_give _ _ _ _ _ I' P).
      * eapply i1_unhold; [exact I'|exact P|cbn; apply one_eqb| | | | |]; auto.
    + destruct (may_share (cells s c)) eqn:M; [|discriminate]. injection E as <-. eapply i1_share_hold; eauto.
    + assert (I' : i1 ex k (read_reference s c)) by (apply i1_flags; exact I). cbn [read_reference cells mflags] in E.
      destruct (present (cells s c)); injection E as <-.
      * eapply i1_go; [exact I'| | | |]; eauto.
      * apply i1_say. eapply i1_unhold; [exact I'|exact P|cbn; apply one_eqb| | | | |]; auto.
    + injection E as <-. apply i1_say. eapply i1_unhold; eauto. cbn. apply one_eqb.
    + injection E as <-. eapply i1_go; [apply i1_flags; exact I|exact P| | |]; auto.
    + injection E as <-. eapply i1_go; [apply i1_flags; exact I|exact P| | |]; auto.
  - destruct (nth_error (guards s) g) as [[c|]|]; try discriminate. destruct (present (cells s c)); [|discriminate]. injection E as <-. apply i1_flags, i1_flags; auto.
  - destruct (nth_error (guards s) g) as [r|] eqn:O; [|discriminate]. injection E as <-. apply i1_guards; auto.
    + apply bounds_snoc; [apply bounds_upd; auto; discriminate|]. intros c ->. eauto.
    + intros c. rewrite upd_snoc_number by auto. lia.
    + intros _ c. rewrite upd_snoc_number by auto. lia.
  - destruct (nth_error (guards s) g) as [q|] eqn:G; [|discriminate]. destruct (nth_error (guards s) g') as [r|] eqn:G'; [|discriminate].
    destruct (Nat.eqb_spec g g') as [->|N]; injection E as <-; [exact I|]. apply i1_guards; auto.
    + apply bounds_upd; [|discriminate]. apply bounds_upd; auto. intros c ->. eauto.
    + intros c. pose proof (assign_number (on c) _ _ _ _ _ eq_refl N G G'). lia.
    + intros X c. pose proof (assign_number (on c) _ _ _ _ _ eq_refl N G G') as A. destruct (OV X) as [Y|Y]; [congruence|]. rewrite G in Y. injection Y as ->. cbn in A. lia.
  - destruct (nth_error (guards s) g) as [[c|]|] eqn:G; try discriminate; injection E as <-; [|exact I]. apply i1_drop; auto.
  - unfold collect in E. destruct (_ && may_own (cells s c)); [|discriminate]. injection E as <-. apply i1_cell; auto; destruct (present (cells s c)); reflexivity.
Qed.

Lemma i1_init ex n : i1 ex (fun _ => 0) (minit n).
Proof.
  assert (X : forall {A} i (y : A), nth_error [] i = Some y -> False) by (intros A [|i] y H; discriminate).
  split; cbn; try lia.
  - split; cbn; intros; try (exfalso; eapply X; eassumption). apply nth_all in H. subst. discriminate.
  - intros t p c P H. apply nth_all in P. subst. discriminate.
Qed.

(** ** The data *)
Inductive phase := Waiting | Locked | Deleted | Nulled.
Definition rphase (p : mpc) : option (nat * nat * after * phase) :=
  match p with
  | MReset o c k => Some (o, c, k, Waiting) | MIn o c k => Some (o, c, k, Locked) | MHalf o c k => Some (o, c, k, Deleted) | MOut o c k => Some (o, c, k, Nulled)
  | _ => None
  end.
Definition half (c : nat) (p : mpc) : nat := one (nulling c p).

Record i2 (s : mstate) : Prop := {
  d_gone : forall c, c < made s -> present (cells s c) = false -> destroyed (cells s c) = 1;
  d_here : forall c, c < made s -> present (cells s c) = true -> destroyed (cells s c) = number_of (half c) (mpcs s);
  d_pc : forall t p o c k f, nth_error (mpcs s) t = Some p -> rphase p = Some (o, c, k, f) -> present (cells s c) = match f with Nulled => false | _ => true end;
  o_one : forall o o' c, nth_error (owners s) o = Some (Some c) -> nth_error (owners s) o' = Some (Some c) -> o = o';
  o_pc : forall t p o c k f, nth_error (mpcs s) t = Some p -> rphase p = Some (o, c, k, f) -> nth_error (owners s) o = Some (Some c);
  o_has : forall o c, nth_error (owners s) o = Some (Some c) -> present (cells s c) = true \/ exists t p k, nth_error (mpcs s) t = Some p /\ rphase p = Some (o, c, k, Nulled);
  o_here : forall c, c < made s -> present (cells s c) = true -> exists o, nth_error (owners s) o = Some (Some c);
  o_use : forall o t u p q, nth_error (mpcs s) t = Some p -> nth_error (mpcs s) u = Some q -> uses_owner o p = true -> uses_owner o q = true -> t = u
}.

Lemma uses_rphase o p : uses_owner o p = match rphase p with Some (o', _, k, _) => (o' =? o) || match k with Take o'' => o'' =? o | _ => false end | None => false end.
Proof. destruct p; reflexivity. Qed.
Lemma half_rphase c p : half c p = match rphase p with Some (_, c', _, Deleted) => one (c' =? c) | _ => 0 end.
Proof. destruct p; reflexivity. Qed.

Definition same_phase (a b : list mpc) : Prop := forall u p, nth_error a u = Some p -> exists q, nth_error b u = Some q /\ rphase p = rphase q.

Lemma same_phase_refl a : same_phase a a.
Proof. intros u p P. exists p. auto. Qed.
Lemma same_phase_upd a t p p' : nth_error a t = Some p -> rphase p' = rphase p -> same_phase (upd a t p') a /\ same_phase a (upd a t p').
Proof.
  intros P H. split; intros u q Q.
  - apply nth_upd in Q. destruct Q as [[-> ->]|[N Q]]; [exists p|exists q]; auto.
  - destruct (Nat.eq_dec t u) as [<-|N].
    + exists p'. split; [eapply nth_upd_same; eauto|]. congruence.
    + exists q. split; [rewrite nth_upd_other by exact N; exact Q|auto].
Qed.

(** nothing that matters changes *)
Lemma i2_gen s s' : i2 s -> made s' = made s -> owners s' = owners s ->
  (forall c, c < made s -> present (cells s' c) = present (cells s c) /\ destroyed (cells s' c) = destroyed (cells s c)) ->
  (forall t p c, nth_error (mpcs s) t = Some p -> pc_refers c p = true -> c < made s) -> (forall o c, nth_error (owners s) o = Some (Some c) -> c < made s) ->
  (forall c, number_of (half c) (mpcs s') = number_of (half c) (mpcs s)) ->
  same_phase (mpcs s') (mpcs s) -> same_phase (mpcs s) (mpcs s') -> i2 s'.
Proof.
  intros [D1 D2 D3 O1 O2 O3 O4 O5] M O C B4 B1 N S1 S2. split; rewrite ?M, ?O; auto.
  - intros c L H. destruct (C c L) as [P ->]. rewrite P in H. auto.
  - intros c L H. destruct (C c L) as [P ->]. rewrite P in H. rewrite N. auto.
  - intros t p o c k f P R. destruct (S1 _ _ P) as (q & Q & E). rewrite R in E. symmetry in E. assert (L : c < made s) by (apply (B4 t q); auto; destruct q; inversion E; subst; cbn; apply Nat.eqb_refl).
    destruct (C c L) as [-> _]. eapply D3; eauto.
  - intros t p o c k f P R. destruct (S1 _ _ P) as (q & Q & E). rewrite R in E. eapply O2; eauto.
  - intros o c H. destruct (C c (B1 _ _ H)) as [-> _]. destruct (O3 o c H) as [X|(t & p & k & P & R)]; [left; exact X|right]. destruct (S2 _ _ P) as (q & Q & E). exists t, q, k. split; [exact Q|congruence].
  - intros c L H. destruct (C c L) as [P _]. rewrite P in H. auto.
  - intros o t u p q P Q Up Uq. destruct (S1 _ _ P) as (p0 & P0 & E). destruct (S1 _ _ Q) as (q0 & Q0 & E'). rewrite uses_rphase in Up, Uq. rewrite E in Up. rewrite E' in Uq.
    eapply O5; eauto; rewrite uses_rphase; eauto.
Qed.

Lemma i2_go s t p p' : i2 s -> bounds s -> nth_error (mpcs s) t = Some p -> rphase p' = rphase p -> i2 (mgo s t p').
Proof.
  intros I [B1 B2 B3 B4] P R. destruct (same_phase_upd _ _ _ _ P R) as [S1 S2]. eapply i2_gen; eauto.
  intros c. cbn. pose proof (number_upd (half c) _ _ p' _ P) as N. rewrite !half_rphase, R in N. lia.
Qed.
Lemma i2_flags s r m : i2 s -> i2 (mflags s r m).
Proof. intros [D1 D2 D3 O1 O2 O3 O4 O5]. split; cbn; auto. Qed.
Lemma i2_say s e : i2 s -> i2 (msay s e).
Proof. intros [D1 D2 D3 O1 O2 O3 O4 O5]. split; cbn; auto. Qed.
Lemma i2_guards s l : i2 s -> i2 (mguards s l).
Proof. intros [D1 D2 D3 O1 O2 O3 O4 O5]. split; cbn; auto. Qed.
Lemma i2_lessees s l : i2 s -> i2 (mlessees s l).
Proof. intros [D1 D2 D3 O1 O2 O3 O4 O5]. split; cbn; auto. Qed.
Lemma i2_cell s c x : i2 s -> bounds s -> present x = present (cells s c) -> destroyed x = destroyed (cells s c) -> i2 (mcell s c x).
Proof.
  intros I [B1 B2 B3 B4] P D. eapply i2_gen; eauto using same_phase_refl. intros c' _. cbn. unfold put. destruct (Nat.eqb_spec c' c); subst; auto.
Qed.
Lemma bounds_flags s r m : bounds s -> bounds (mflags s r m).
Proof. intros [B1 B2 B3 B4]. split; cbn; auto. Qed.
Lemma bounds_cell s c x : bounds s -> bounds (mcell s c x).
Proof. intros [B1 B2 B3 B4]. split; cbn; auto. Qed.
Lemma i2_share s c : i2 s -> bounds s -> i2 (share s c).
Proof. intros I B. apply i2_cell; auto. Qed.
Lemma i2_unshare s c : i2 s -> bounds s -> i2 (unshare s c).
Proof. intros I B. unfold unshare. destruct (sharing (cells s c)); [apply i2_flags; auto|apply i2_cell; auto]. Qed.
Lemma bounds_unshare s c : bounds s -> bounds (unshare s c).
Proof. intros B. unfold unshare. destruct (sharing (cells s c)); [apply bounds_flags; auto|apply bounds_cell; auto]. Qed.
Lemma unshare_pcs s c : mpcs (unshare s c) = mpcs s.
Proof. unfold unshare. destruct (sharing (cells s c)); reflexivity. Qed.
Lemma bounds_guards_in s c t : bounds s -> nth_error (mpcs s) t <> None -> (exists p, nth_error (mpcs s) t = Some p /\ pc_refers c p = true) -> bounds (mguards s (guards s ++ [Some c])).
Proof. intros [B1 B2 B3 B4] _ (p & P & R). split; cbn; auto. apply bounds_snoc; auto. intros c' [= <-]. eauto. Qed.

Lemma not_busy s o : busy s o = false -> forall t p, nth_error (mpcs s) t = Some p -> uses_owner o p = false.
Proof.
  unfold busy. intros H t p P. destruct (uses_owner o p) eqn:U; [|reflexivity]. assert (existsb (uses_owner o) (mpcs s) = true); [|congruence].
  apply existsb_exists. exists p. split; [eapply nth_error_In; eauto|exact U].
Qed.

Lemma uses_own p o c k f : rphase p = Some (o, c, k, f) -> uses_owner o p = true.
Proof. intros R. rewrite uses_rphase, R, Nat.eqb_refl. reflexivity. Qed.

Lemma rphase_refers p o c k f : rphase p = Some (o, c, k, f) -> pc_refers c p = true.
Proof. destruct p; cbn; intros E; inversion E; subst; apply Nat.eqb_refl. Qed.

(** the owners change hands *)
Lemma i2_owners s l : i2 s ->
  (forall o o' c, nth_error l o = Some (Some c) -> nth_error l o' = Some (Some c) -> o = o') ->
  (forall o c, nth_error l o = Some (Some c) -> nth_error (owners s) o = Some (Some c) \/ present (cells s c) = true) ->
  (forall t p o c k f, nth_error (mpcs s) t = Some p -> rphase p = Some (o, c, k, f) -> nth_error l o = Some (Some c)) ->
  (forall o c, nth_error (owners s) o = Some (Some c) -> present (cells s c) = true -> exists o', nth_error l o' = Some (Some c)) -> i2 (mowners s l).
Proof.
  intros [D1 D2 D3 O1 O2 O3 O4 O5] H1 H2 H3 H4. split; cbn; auto.
  - intros o c H. destruct (H2 _ _ H) as [X|X]; auto.
  - intros c L P. destruct (O4 c L P) as [o O]. eapply H4; eauto.
Qed.

(** a shared pointer moves from an owner nobody uses to an empty one nobody uses *)
Lemma i2_take s o o' r : i2 s -> nth_error (owners s) o = Some None -> nth_error (owners s) o' = Some r ->
  (forall t p, nth_error (mpcs s) t = Some p -> uses_owner o p = false) -> (forall t p, nth_error (mpcs s) t = Some p -> uses_owner o' p = false) ->
  i2 (mowners s (upd (upd (owners s) o r) o' None)).
Proof.
  intros I O O' U U'. pose proof I as [D1 D2 D3 O1 O2 O3 O4 O5].
  assert (N : forall x c, nth_error (upd (upd (owners s) o r) o' None) x = Some (Some c) <-> x <> o' /\ ((x = o /\ r = Some c) \/ nth_error (owners s) x = Some (Some c))).
  { intros x c. split.
    - intros H. apply nth_upd in H. destruct H as [[_ H]|[N H]]; [discriminate|]. split; [exact N|]. apply nth_upd in H. destruct H as [[-> <-]|[_ H]]; auto.
    - intros [N [[-> ->]|H]]; rewrite nth_upd_other by congruence.
      + eapply nth_upd_same; eauto.
      + rewrite nth_upd_other; [exact H|]. intros <-. congruence. }
  apply i2_owners; auto.
  - intros x y c X Y. apply N in X, Y. destruct X as [Nx [[-> ->]|X]], Y as [Ny [[-> Y]|Y]]; auto.
    + exfalso. apply Ny. eapply O1; eauto.
    + subst. exfalso. apply Nx. eapply O1; eauto.
    + eapply O1; eauto.
  - intros x c X. apply N in X. destruct X as [Nx [[-> ->]|X]]; [right|auto].
    destruct (O3 _ _ O') as [P|(t & p & k & P & R)]; [exact P|]. apply uses_own in R. rewrite (U' _ _ P) in R. discriminate.
  - intros t p x c k f P R. apply N. pose proof (O2 _ _ _ _ _ _ P R) as X. apply uses_own in R. split; [|auto]. intros ->. rewrite (U' _ _ P) in R. discriminate.
  - intros x c X P. destruct (Nat.eq_dec x o') as [->|Nx].
    + rewrite O' in X. injection X as ->. exists o. apply N. split; [|auto]. intros ->. congruence.
    + exists x. apply N. auto.
Qed.

Lemma i2_move s o r : i2 s -> nth_error (owners s) o = Some r -> (forall t p, nth_error (mpcs s) t = Some p -> uses_owner o p = false) ->
  i2 (mowners s (upd (owners s) o None ++ [r])).
Proof.
  intros I O U. pose proof I as [D1 D2 D3 O1 O2 O3 O4 O5].
  assert (Lo : o < length (owners s)) by (apply nth_error_Some; congruence).
  assert (N : forall x c, nth_error (upd (owners s) o None ++ [r]) x = Some (Some c) <-> (x = length (owners s) /\ r = Some c) \/ (x <> o /\ nth_error (owners s) x = Some (Some c))).
  { intros x c. split.
    - intros H. apply nth_snoc in H. rewrite upd_length in H. destruct H as [H|[-> H]]; [right|left; auto]. apply nth_upd in H. destruct H as [[_ H]|H]; [discriminate|exact H].
    - intros [[-> ->]|[Nx H]].
      + rewrite nth_error_app2 by (rewrite upd_length; lia). rewrite upd_length, Nat.sub_diag. reflexivity.
      + apply nth_snoc_old. rewrite nth_upd_other by congruence. exact H. }
  apply i2_owners; auto.
  - intros x y c X Y. apply N in X, Y. destruct X as [[-> X]|[Nx X]], Y as [[-> Y]|[Ny Y]]; auto.
    + subst r. exfalso. apply Ny. eapply O1; eauto.
    + subst r. exfalso. apply Nx. eapply O1; eauto.
    + eapply O1; eauto.
  - intros x c X. apply N in X. destruct X as [[-> ->]|[_ X]]; [right|auto].
    destruct (O3 _ _ O) as [P|(t & p & k & P & R)]; [exact P|]. apply uses_own in R. rewrite (U _ _ P) in R. discriminate.
  - intros t p x c k f P R. apply N. right. pose proof (O2 _ _ _ _ _ _ P R) as X. apply uses_own in R. split; [|auto]. intros ->. rewrite (U _ _ P) in R. discriminate.
  - intros x c X P. destruct (Nat.eq_dec x o) as [->|Nx].
    + rewrite O in X. injection X as ->. exists (length (owners s)). apply N. auto.
    + exists x. apply N. auto.
Qed.

Lemma i2_renew s o : i2 s -> bounds s -> nth_error (owners s) o = Some None -> (forall t p, nth_error (mpcs s) t = Some p -> uses_owner o p = false) ->
  i2 (mowners (mnew s) (upd (owners s) o (Some (made s)))).
Proof.
  intros I [B1 B2 B3 B4] O U. pose proof I as [D1 D2 D3 O1 O2 O3 O4 O5].
  assert (N : forall x c, nth_error (upd (owners s) o (Some (made s))) x = Some (Some c) <-> (x = o /\ c = made s) \/ nth_error (owners s) x = Some (Some c)).
  { intros x c. split.
    - intros H. apply nth_upd in H. destruct H as [[-> H]|[_ H]]; [left; split; congruence|auto].
    - intros [[-> ->]|H]; [eapply nth_upd_same; eauto|]. rewrite nth_upd_other; [exact H|]. intros <-. congruence. }
  split; cbn [mowners mnew made cells owners mpcs].
  - intros c L. destruct (Nat.eq_dec c (made s)) as [->|Nc]; [rewrite put_same; discriminate|]. rewrite put_other by exact Nc. apply D1. lia.
  - intros c L. destruct (Nat.eq_dec c (made s)) as [->|Nc].
    + rewrite put_same. intros _. cbn. symmetry. apply number_zero. intros i p P. pose proof (B4 _ _ (made s) P) as X. rewrite half_rphase. destruct (rphase p) as [[[[o1 c1] k1] f1]|] eqn:R; [|reflexivity].
      apply rphase_refers in R as R'. destruct f1; auto. destruct (Nat.eqb_spec c1 (made s)) as [->|]; [|reflexivity]. specialize (X R'). lia.
    + rewrite put_other by exact Nc. apply D2. lia.
  - intros t p o1 c k f P R. apply rphase_refers in R as R'. rewrite put_other; [eauto|]. specialize (B4 _ _ _ P R'). lia.
  - intros x y c X Y. apply N in X, Y. destruct X as [[-> ->]|X], Y as [[-> Y]|Y]; auto.
    + specialize (B1 _ _ Y). lia.
    + subst c. specialize (B1 _ _ X). lia.
    + eapply O1; eauto.
  - intros t p x c k f P R. apply N. right. eauto.
  - intros x c X. apply N in X. destruct X as [[-> ->]|X].
    + left. rewrite put_same. reflexivity.
    + rewrite put_other by (specialize (B1 _ _ X); lia). auto.
  - intros c L P. destruct (Nat.eq_dec c (made s)) as [->|Nc].
    + exists o. apply N. auto.
    + rewrite put_other in P by exact Nc. assert (L' : c < made s) by lia. destruct (O4 c L' P) as [x X]. exists x. apply N. auto.
  - exact O5.
Qed.

Lemma i2_finish s t o k : i2 s -> bounds s -> nth_error (mpcs s) t = Some MIdle -> nth_error (owners s) o = Some None ->
  (forall u p, nth_error (mpcs s) u = Some p -> uses_owner o p = false) ->
  (forall o', k = Take o' -> forall u p, nth_error (mpcs s) u = Some p -> uses_owner o' p = false) -> i2 (finish s t o k).
Proof.
  intros I B P O U U'. assert (P' : mgo s t MIdle = s).
  { unfold mgo. assert (X : forall (l : list mpc) i x, nth_error l i = Some x -> upd l i x = l).
    { induction l as [|y l IH]; intros [|i] x H; cbn in *; try discriminate; [congruence|]. f_equal. auto. }
    rewrite X by exact P. destruct s; reflexivity. }
  unfold finish. rewrite P'. destruct k as [|[]|o']; try (apply i2_say; exact I).
  - apply i2_say. apply i2_renew; auto.
  - destruct (nth_error (owners s) o') as [r|] eqn:O'; apply i2_say; auto. apply i2_take; auto. apply (U' o' eq_refl).
Qed.

(** nobody else resets the same data *)
Lemma alone s t u p q o c k f o' k' f' : i2 s -> nth_error (mpcs s) t = Some p -> nth_error (mpcs s) u = Some q ->
  rphase p = Some (o, c, k, f) -> rphase q = Some (o', c, k', f') -> t = u.
Proof.
  intros I P Q R R'. pose proof (o_pc _ I _ _ _ _ _ _ P R) as X. pose proof (o_pc _ I _ _ _ _ _ _ Q R') as Y. pose proof (o_one _ I _ _ _ X Y). subst o'.
  eapply (o_use _ I o); eauto using uses_own.
Qed.
Lemma half_one s t p o c k : i2 s -> nth_error (mpcs s) t = Some p -> rphase p = Some (o, c, k, Deleted) -> number_of (half c) (mpcs s) = 1.
Proof.
  intros I P R. pose proof (number_upd (half c) _ _ MIdle _ P) as N.
  assert (Z : number_of (half c) (upd (mpcs s) t MIdle) = 0).
  { apply number_zero. intros u q Q. apply nth_upd in Q. destruct Q as [[_ ->]|[Nu Q]]; [reflexivity|]. rewrite half_rphase. destruct (rphase q) as [[[[o' c'] k'] f']|] eqn:R'; [|reflexivity].
    destruct f'; auto. destruct (Nat.eqb_spec c' c) as [->|]; [|reflexivity]. destruct Nu. symmetry. eapply alone; eauto. }
  rewrite Z in N. rewrite (half_rphase c p), R, one_eqb in N. cbn in N. lia.
Qed.

(** reset goes on *)
Lemma i2_phase s t p o c k f p' f' x : i2 s -> nth_error (mpcs s) t = Some p -> rphase p = Some (o, c, k, f) -> rphase p' = Some (o, c, k, f') ->
  present x = match f' with Nulled => false | _ => true end -> (present x = false -> destroyed x = 1) ->
  (present x = true -> destroyed x + match f with Deleted => 1 | _ => 0 end = destroyed (cells s c) + match f' with Deleted => 1 | _ => 0 end) -> c < made s -> f <> Nulled ->
  i2 (mgo (mcell s c x) t p').
Proof.
  intros I P R R' PX DX HX L NF. pose proof I as [D1 D2 D3 O1 O2 O3 O4 O5].
  assert (NU : forall c', number_of (half c') (upd (mpcs s) t p') + half c' p = number_of (half c') (mpcs s) + half c' p') by (intros; apply number_upd; exact P).
  split; cbn [mgo mcell made cells owners mpcs].
  - intros c' L'. destruct (Nat.eq_dec c' c) as [->|Nc]; [rewrite put_same; exact DX|]. rewrite put_other by exact Nc. auto.
  - intros c' L' H. specialize (NU c'). rewrite (half_rphase c' p), (half_rphase c' p'), R, R' in NU. destruct (Nat.eq_dec c' c) as [->|Nc].
    + rewrite put_same in *. specialize (HX H). rewrite one_eqb in NU. assert (PC : present (cells s c) = true) by (rewrite (D3 _ _ _ _ _ _ P R); destruct f; congruence). specialize (D2 c L PC). destruct f, f'; lia.
    + rewrite put_other in * by exact Nc. assert (E : (c =? c') = false) by (apply Nat.eqb_neq; congruence). rewrite E in NU. specialize (D2 c' L' H). destruct f, f'; cbn in *; lia.
  - intros u q o1 c1 k1 f1 Q R1. apply nth_upd in Q. destruct Q as [[-> ->]|[Nu Q]].
    + rewrite R' in R1. injection R1 as <- <- <- <-. rewrite put_same. exact PX.
    + rewrite put_other; [eauto|]. intros ->. destruct Nu. symmetry. eapply alone; eauto.
  - exact O1.
  - intros u q o1 c1 k1 f1 Q R1. apply nth_upd in Q. destruct Q as [[-> ->]|[Nu Q]]; [|eauto]. rewrite R' in R1. injection R1 as <- <- <- <-. eauto.
  - intros o1 c1 H. destruct (Nat.eq_dec c1 c) as [->|Nc].
    + rewrite put_same. assert (o1 = o) by (eapply O1; eauto). subst o1. destruct (present x) eqn:X; [auto|right]. exists t, p', k. split; [eapply nth_upd_same; eauto|]. destruct f'; try discriminate. exact R'.
    + rewrite put_other by exact Nc. destruct (O3 _ _ H) as [Y|(u & q & k1 & Q & R1)]; [auto|right]. exists u, q, k1. split; [|exact R1]. rewrite nth_upd_other; [exact Q|]. intros <-. rewrite P in Q. injection Q as <-. congruence.
  - intros c' L' H. destruct (Nat.eq_dec c' c) as [->|Nc]; [exists o; eauto|]. rewrite put_other in H by exact Nc. auto.
  - assert (UE : forall o1, uses_owner o1 p' = uses_owner o1 p) by (intros; rewrite !uses_rphase, R, R'; reflexivity).
    intros o1 u v q r Q Rr Uq Ur. apply nth_upd in Q, Rr. destruct Q as [[-> ->]|[Nu Q]], Rr as [[-> ->]|[Nv Rr]]; auto; rewrite ?UE in *; eapply O5; eauto.
Qed.

(** reset begins *)
Lemma i2_begin s t o c k : i2 s -> nth_error (mpcs s) t = Some MIdle -> nth_error (owners s) o = Some (Some c) -> present (cells s c) = true ->
  (forall u p, nth_error (mpcs s) u = Some p -> uses_owner o p = false) ->
  (forall o', k = Take o' -> forall u p, nth_error (mpcs s) u = Some p -> uses_owner o' p = false) -> i2 (mgo s t (MReset o c k)).
Proof.
  intros I P O PR U U'. pose proof I as [D1 D2 D3 O1 O2 O3 O4 O5]. split; cbn [mgo mcell made cells owners mpcs]; auto.
  - intros c' L H. pose proof (number_upd (half c') _ _ (MReset o c k) _ P) as N. cbn in N. rewrite D2 by auto. lia.
  - intros u q o1 c1 k1 f1 Q R1. apply nth_upd in Q. destruct Q as [[-> ->]|[Nu Q]]; [|eauto]. cbn in R1. injection R1 as <- <- <- <-. exact PR.
  - intros u q o1 c1 k1 f1 Q R1. apply nth_upd in Q. destruct Q as [[-> ->]|[Nu Q]]; [|eauto]. cbn in R1. injection R1 as <- <- <- <-. exact O.
  - intros o1 c1 H. destruct (O3 _ _ H) as [Y|(u & q & k1 & Q & R1)]; [auto|right]. exists u, q, k1. split; [|exact R1]. rewrite nth_upd_other; [exact Q|]. intros <-. rewrite P in Q. injection Q as <-. discriminate.
  - assert (UN : forall o1, uses_owner o1 (MReset o c k) = true -> forall u q, nth_error (mpcs s) u = Some q -> uses_owner o1 q = false).
    { intros o1 H u q Q. cbn in H. apply orb_true_iff in H. destruct H as [H|H]; [apply Nat.eqb_eq in H; subst; eauto|]. destruct k as [| |o2]; try discriminate. apply Nat.eqb_eq in H. subst. eauto. }
    intros o1 u v q r Q Rr Uq Ur. apply nth_upd in Q, Rr. destruct Q as [[-> ->]|[Nu Q]], Rr as [[-> ->]|[Nv Rr]]; auto.
    + rewrite (UN _ Uq _ _ Rr) in Ur. discriminate.
    + rewrite (UN _ Ur _ _ Q) in Uq. discriminate.
    + eapply O5; eauto.
Qed.

(** reset ends *)
Lemma i2_end s t o c k x : i2 s -> nth_error (mpcs s) t = Some (MOut o c k) -> present x = present (cells s c) -> destroyed x = destroyed (cells s c) ->
  i2 (mgo (mowners (mcell s c x) (upd (owners s) o None)) t MIdle).
Proof.
  intros I P PX DX. pose proof I as [D1 D2 D3 O1 O2 O3 O4 O5].
  assert (PC : forall c', present (put (cells s) c x c') = present (cells s c') /\ destroyed (put (cells s) c x c') = destroyed (cells s c')).
  { intros c'. unfold put. destruct (Nat.eqb_spec c' c) as [->|]; auto. }
  pose proof (O2 _ _ _ _ _ _ P eq_refl) as OC. pose proof (D3 _ _ _ _ _ _ P eq_refl) as PF. cbn in PF.
  split; cbn [mgo mowners mcell made cells owners mpcs].
  - intros c' L H. destruct (PC c') as [E ->]. rewrite E in H. auto.
  - intros c' L H. destruct (PC c') as [E ->]. rewrite E in H. pose proof (number_upd (half c') _ _ MIdle _ P) as N. cbn in N. rewrite D2 by auto. lia.
  - intros u q o1 c1 k1 f1 Q R1. apply nth_upd in Q. destruct Q as [[-> ->]|[Nu Q]]; [discriminate|]. destruct (PC c1) as [-> _]. eauto.
  - intros x1 y1 c1 X Y. apply nth_upd in X, Y. destruct X as [[_ X]|[_ X]]; [discriminate|]. destruct Y as [[_ Y]|[_ Y]]; [discriminate|]. eauto.
  - intros u q o1 c1 k1 f1 Q R1. apply nth_upd in Q. destruct Q as [[-> ->]|[Nu Q]]; [discriminate|]. rewrite nth_upd_other; [eauto|]. intros <-. destruct Nu.
    eapply (O5 o); eauto; [eapply uses_own; eauto|]. cbn. rewrite Nat.eqb_refl. reflexivity.
  - intros o1 c1 X. apply nth_upd in X. destruct X as [[_ X]|[No X]]; [discriminate|]. destruct (PC c1) as [-> _]. destruct (O3 _ _ X) as [Y|(u & q & k1 & Q & R1)]; [auto|right].
    exists u, q, k1. split; [|exact R1]. rewrite nth_upd_other; [exact Q|]. intros <-. rewrite P in Q. injection Q as <-. cbn in R1. congruence.
  - intros c' L H. destruct (PC c') as [E _]. rewrite E in H. destruct (O4 c' L H) as [o1 X]. exists o1. rewrite nth_upd_other; [exact X|]. intros <-. congruence.
  - intros o1 u v q r Q Rr Uq Ur. apply nth_upd in Q, Rr. destruct Q as [[-> ->]|[Nu Q]]; [discriminate|]. destruct Rr as [[-> ->]|[Nv Rr]]; [discriminate|]. eapply O5; eauto.
Qed.

Lemma bounds_of ex k s : i1 ex k s -> bounds s.
Proof. intros I. exact (i_b _ _ _ I). Qed.

Lemma i2_step ex k s l s' : i1 ex k s -> i2 s -> mstep s l = Some s' -> i2 s'.
Proof.
  intros I J E. pose proof (i_b _ _ _ I) as B. pose proof B as [B1 B2 B3 B4]. pose proof J as [D1 D2 D3 O1 O2 O3 O4 O5].
  destruct l as [|t o j|o|o|l|l|l|t l w|t|g|g|g g'|g|c]; cbn [mstep] in E.
  - injection E as <-. apply i2_owners; auto.
    + intros o o' c X Y. apply nth_snoc in X, Y. destruct X as [X|[_ X]]; [|discriminate]. destruct Y as [Y|[_ Y]]; [|discriminate]. eauto.
    + intros o c X. apply nth_snoc in X. destruct X as [X|[_ X]]; [auto|discriminate].
    + intros. apply nth_snoc_old. eauto.
    + intros o c X _. exists o. apply nth_snoc_old. exact X.
  - unfold call_reset in E. destruct (nth_error (mpcs s) t) as [[]|] eqn:P; try discriminate. destruct (nth_error (owners s) o) as [r|] eqn:O; [|discriminate].
    destruct (busy s o || _) eqn:BU; [discriminate|]. apply orb_false_iff in BU. destruct BU as [U U'].
    pose proof (not_busy _ _ U) as NU.
    assert (NU' : forall o', j = Take o' -> forall u p, nth_error (mpcs s) u = Some p -> uses_owner o' p = false) by (intros o' -> ; apply not_busy; exact U').
    destruct r as [c|].
    + destruct (present (cells s c)) eqn:PR.
      * injection E as <-. apply i2_begin; auto.
      * exfalso. destruct (O3 _ _ O) as [X|(u & p & k1 & Q & R)]; [congruence|]. apply uses_own in R. rewrite (NU _ _ Q) in R. discriminate.
    + injection E as <-. apply i2_finish; auto.
  - destruct (nth_error (owners s) o) as [r|] eqn:O; [|discriminate]. destruct (busy s o) eqn:U; [discriminate|]. injection E as <-. apply i2_move; auto. apply not_busy. exact U.
  - destruct (nth_error (owners s) o) as [r|] eqn:O; [|discriminate]. destruct (busy s o); [discriminate|]. injection E as <-. apply i2_lessees; auto.
  - destruct (nth_error (lessees s) l) as [r|] eqn:O; [|discriminate]. injection E as <-. apply i2_lessees; auto.
  - destruct (nth_error (lessees s) l) as [r|] eqn:O; [|discriminate]. injection E as <-. apply i2_lessees; auto.
  - unfold lessee_bool in E. destruct (nth_error (lessees s) l) as [[c|]|] eqn:O; [| |discriminate]; injection E as <-; apply i2_say; auto. apply i2_flags; auto.
  - unfold call_lock in E. destruct (nth_error (mpcs s) t) as [[]|] eqn:P; try discriminate. destruct (nth_error (lessees s) l) as [r|] eqn:O; [|discriminate].
    destruct r as [c|], w; injection E as <-; try (eapply i2_go; eauto; fail); try (apply i2_say; exact J). apply i2_guards; auto.
  - unfold mrun in E. destruct (nth_error (mpcs s) t) as [p|] eqn:P; [|discriminate].
    assert (RB : forall c', pc_refers c' p = true -> c' < made s) by (intros; eauto).
    destruct p as [|o c j|o c j|o c j|o c j|c|c|c|c|c|c|c|c]; try discriminate.
    + destruct (may_own (cells s c)) eqn:M; [|discriminate]. injection E as <-. pose proof (D3 _ _ _ _ _ _ P eq_refl) as PR. cbn in PR.
      assert (L : c < made s) by (apply RB; cbn; apply Nat.eqb_refl).
      apply (i2_phase _ _ _ o c j Waiting (MIn o c j) Locked _ J P eq_refl eq_refl); cbn; auto; try congruence; try lia.
    + pose proof (D3 _ _ _ _ _ _ P eq_refl) as PR. cbn in PR. rewrite PR in E. injection E as <-.
      assert (L : c < made s) by (apply RB; cbn; apply Nat.eqb_refl).
      apply (i2_phase _ _ _ o c j Locked (MHalf o c j) Deleted _ J P eq_refl eq_refl); cbn; auto; try congruence; try lia.
    + injection E as <-. pose proof (D3 _ _ _ _ _ _ P eq_refl) as PR. cbn in PR. assert (L : c < made s) by (apply RB; cbn; apply Nat.eqb_refl).
      apply (i2_phase _ _ _ o c j Deleted (MOut o c j) Nulled _ J P eq_refl eq_refl); cbn; auto; try congruence. intros _. rewrite D2 by auto. eapply half_one; eauto. reflexivity.
    + injection E as <-. rewrite <- finish_idle. pose proof (i2_end _ _ _ _ _ (with_owner (cells s c) None) J P eq_refl eq_refl) as K.
      assert (BK : bounds (mgo (mowners (mcell s c (with_owner (cells s c) None)) (upd (owners s) o None)) t MIdle)).
      { split; cbn; auto; [apply bounds_upd; auto; discriminate|]. apply bounds_pcs; auto. cbn. discriminate. }
      apply i2_finish; auto; cbn.
      * eapply nth_upd_same; exact P.
      * eapply nth_upd_same; exact (O2 _ _ _ _ _ _ P eq_refl).
      * intros u q Q. apply nth_upd in Q. destruct Q as [[_ ->]|[Nu Q]]; [reflexivity|]. destruct (uses_owner o q) eqn:Uq; [|reflexivity]. destruct Nu.
        eapply (O5 o); eauto. cbn. rewrite Nat.eqb_refl. reflexivity.
      * intros o' -> u q Q. apply nth_upd in Q. destruct Q as [[_ ->]|[Nu Q]]; [reflexivity|]. destruct (uses_owner o' q) eqn:Uq; [|reflexivity]. destruct Nu.
        eapply (O5 o'); eauto. cbn. rewrite Nat.eqb_refl. apply orb_true_r.
    + destruct (may_share (cells s c)) eqn:M; [|discriminate]. injection E as <-. eapply i2_go; [| |exact P|reflexivity].
      * apply i2_guards, i2_share; auto.
      * split; cbn; auto. apply bounds_snoc; auto. intros c' [= <-]. apply RB. cbn. apply Nat.eqb_refl.
    + destruct (may_share (cells s c)) eqn:M; [|discriminate]. injection E as <-. eapply i2_go; [| |exact P|reflexivity]; [apply i2_share; auto|apply bounds_cell; auto].
    + cbn [read_reference cells mflags] in E. assert (J' : i2 (read_reference s c)) by (apply i2_flags; exact J). assert (B' : bounds (read_reference s c)) by (apply bounds_flags; exact B).
      destruct (present (cells s c)); injection E as <-; apply i2_say.
      * eapply i2_go; [| |exact P|reflexivity]; [apply i2_guards; auto|]. split; cbn; auto. apply bounds_snoc; auto. intros c' [= <-]. apply RB. cbn. apply Nat.eqb_refl.
      * apply (i2_go _ _ (MCheckX c)); [apply i2_unshare; eauto|apply bounds_unshare; exact B'| |reflexivity]. rewrite unshare_pcs. exact P.
    + destruct (may_share (cells s c)) eqn:M; [|discriminate]. injection E as <-. eapply i2_go; [| |exact P|reflexivity]; [apply i2_share; auto|apply bounds_cell; auto].
    + cbn [read_reference cells mflags] in E. assert (J' : i2 (read_reference s c)) by (apply i2_flags; exact J). assert (B' : bounds (read_reference s c)) by (apply bounds_flags; exact B).
      destruct (present (cells s c)); injection E as <-.
      * eapply i2_go; [exact J'|exact B'|exact P|reflexivity].
      * apply i2_say. apply (i2_go _ _ (MCheckA c)); [apply i2_unshare; eauto|apply bounds_unshare; exact B'| |reflexivity]. rewrite unshare_pcs. exact P.
    + injection E as <-. apply i2_say. apply (i2_go _ _ (MRaw c)); [apply i2_unshare; eauto|apply bounds_unshare; exact B| |reflexivity]. rewrite unshare_pcs. exact P.
    + injection E as <-. eapply i2_go; [apply i2_flags; exact J|apply bounds_flags; exact B|exact P|reflexivity].
    + injection E as <-. eapply i2_go; [apply i2_flags; exact J|apply bounds_flags; exact B|exact P|reflexivity].
  - destruct (nth_error (guards s) g) as [[c|]|]; try discriminate. destruct (present (cells s c)); [|discriminate]. injection E as <-. apply i2_flags, i2_flags; auto.
  - destruct (nth_error (guards s) g) as [r|] eqn:O; [|discriminate]. injection E as <-. apply i2_guards; auto.
  - destruct (nth_error (guards s) g) as [q|] eqn:G; [|discriminate]. destruct (nth_error (guards s) g') as [r|] eqn:G'; [|discriminate].
    destruct (g =? g'); injection E as <-; [exact J|]. apply i2_guards; auto.
  - destruct (nth_error (guards s) g) as [[c|]|] eqn:G; try discriminate; injection E as <-; [|exact J]. apply i2_guards, i2_unshare; auto.
  - unfold collect in E. destruct ((c <? made s) && negb (collected (cells s c)) && negb (referred s c)) eqn:A; [|discriminate]. destruct (may_own (cells s c)); [|discriminate]. injection E as <-.
    apply andb_true_iff in A. destruct A as [A RF]. apply andb_true_iff in A. destruct A as [L _]. apply Nat.ltb_lt in L.
    destruct (present (cells s c)) eqn:PR.
    + exfalso. destruct (O4 c L PR) as [o O]. unfold referred in RF. assert (X : existsb (refers c) (owners s) = true).
      { apply existsb_exists. exists (Some c). split; [eapply nth_error_In; eauto|cbn; apply Nat.eqb_refl]. }
      rewrite X in RF. discriminate.
    + apply i2_cell; auto.
Qed.

Lemma i2_init n : i2 (minit n).
Proof.
  assert (X : forall {A} i (y : A), nth_error [] i = Some y -> False) by (intros A [|i] y H; discriminate).
  split; cbn; try lia; intros; try (exfalso; eapply X; eassumption); try (apply nth_all in H; subst; discriminate).
Qed.

Lemma reach_inv (allowed : mstate -> mlabel -> Prop) n s : mreachable allowed n s -> i1 false (fun _ => 0) s /\ i2 s.
Proof.
  induction 1 as [|s l s' R [I J] A E].
  - split; [apply i1_init|apply i2_init].
  - split; [eapply i1_step; eauto; discriminate|eapply i2_step; eauto].
Qed.
Lemma reach_exact n s : mreachable no_overwrite n s -> i1 true (fun _ => 0) s.
Proof. induction 1 as [|s l s' R I A E]; [apply i1_init|eapply i1_step; eauto]. Qed.

(** ** What follows *)
Lemma shared_not_half ex k s c : i1 ex k s -> c < made s -> sharing (cells s c) <> 0 -> number_of (half c) (mpcs s) = 0.
Proof.
  intros I L S. apply number_zero. intros t p P. rewrite half_rphase. destruct (rphase p) as [[[[o c'] k1] f]|] eqn:R; [|reflexivity]. destruct f; auto.
  destruct (Nat.eqb_spec c' c) as [->|]; [|reflexivity]. exfalso. assert (X : owned_by (cells s c) = Some t).
  { apply (i_ex1 _ _ _ I t p); auto. destruct p; inversion R; subst; cbn; apply one_eqb. }
  apply S, (i_ex3 _ _ _ I); congruence.
Qed.

Lemma guarded_shared ex k s c : i1 ex k s -> guarded s c -> sharing (cells s c) <> 0 /\ c < made s.
Proof.
  intros I [[g G]|(t & p & P & H)]; [eapply guard_shared; eauto|]. eapply held_shared; eauto. destruct H as [-> |[-> | ->]]; cbn; apply one_eqb.
Qed.

Lemma guard_safe_lemma allowed n s : mreachable allowed n s -> forall c, guarded s c -> present (cells s c) = true -> destroyed (cells s c) = 0.
Proof.
  intros R c G P. destruct (reach_inv _ _ _ R) as [I J]. destruct (guarded_shared _ _ _ _ I G) as [S L]. rewrite (d_here _ J) by auto. eapply shared_not_half; eauto.
Qed.

Lemma once_lemma allowed n s : mreachable allowed n s -> forall c, c < made s ->
  destroyed (cells s c) <= 1 /\ (~ has_owner s c -> destroyed (cells s c) = 1 /\ present (cells s c) = false).
Proof.
  intros R c L. destruct (reach_inv _ _ _ R) as [I J]. destruct (present (cells s c)) eqn:P.
  - split.
    + rewrite (d_here _ J) by auto. destruct (number_of (half c) (mpcs s)) as [|[|m]] eqn:N; auto. exfalso.
      assert (X : exists t p, nth_error (mpcs s) t = Some p /\ half c p <> 0).
      { destruct (existsb (nulling c) (mpcs s)) eqn:E.
        - apply existsb_exists in E. destruct E as (p & In & H). apply In_nth_error in In. destruct In as [t T]. exists t, p. split; [exact T|]. unfold half. rewrite H. discriminate.
        - assert (Z : number_of (half c) (mpcs s) = 0); [|lia]. apply number_zero. intros i p H. unfold half. destruct (nulling c p) eqn:Y; [|reflexivity].
          assert (existsb (nulling c) (mpcs s) = true) by (apply existsb_exists; exists p; split; [eapply nth_error_In; eauto|exact Y]). congruence. }
      destruct X as (t & p & T & H). rewrite half_rphase in H. destruct (rphase p) as [[[[o c'] k] f]|] eqn:RP; [|congruence]. destruct f; try congruence.
      destruct (Nat.eqb_spec c' c) as [->|]; [|cbn in H; congruence]. pose proof (half_one _ _ _ _ _ _ J T RP). lia.
    + intros H. destruct H. destruct (o_here _ J c L P) as [o O]. exists o. exact O.
  - rewrite (d_gone _ J) by auto. split; auto.
Qed.

(** the data of a cell changes only in the two steps of reset *)
Lemma finish_cells s t o k c : c < made s -> cells (finish s t o k) c = cells s c.
Proof.
  intros L. unfold finish. destruct k as [|[]|o']; try reflexivity.
  - cbn. rewrite put_other by lia. reflexivity.
  - cbn. destruct (nth_error (owners s) o'); reflexivity.
Qed.
Lemma finish_pcs s t o k : mpcs (finish s t o k) = upd (mpcs s) t MIdle.
Proof. unfold finish. destruct k as [|[]|o']; try reflexivity. cbn. destruct (nth_error (owners s) o'); reflexivity. Qed.
Lemma finish_made s t o k : made s <= made (finish s t o k).
Proof. unfold finish. destruct k as [|[]|o']; cbn; auto. destruct (nth_error (owners s) o'); cbn; auto. Qed.

Lemma unshare_data s c c' : present (cells (unshare s c) c') = present (cells s c') /\ destroyed (cells (unshare s c) c') = destroyed (cells s c') /\ made (unshare s c) = made s.
Proof.
  unfold unshare. destruct (sharing (cells s c)); cbn; auto. unfold put. destruct (Nat.eqb_spec c' c) as [->|]; auto.
Qed.

Lemma data_step s l s' c : i1 false (fun _ => 0) s -> i2 s -> mstep s l = Some s' -> c < made s -> made s <= made s' /\
  ((present (cells s' c) = present (cells s c) /\ destroyed (cells s' c) = destroyed (cells s c)) \/
   (exists t o k, nth_error (mpcs s) t = Some (MIn o c k) /\ l = MRun t) \/ (exists t o k, nth_error (mpcs s) t = Some (MHalf o c k) /\ l = MRun t /\ present (cells s' c) = false /\ destroyed (cells s' c) = destroyed (cells s c))).
Proof.
  intros I J E L.
  destruct l as [|t o j|o|o|l|l|l|t l w|t|g|g|g g'|g|d]; cbn [mstep] in E.
  - injection E as <-. auto.
  - unfold call_reset in E. destruct (nth_error (mpcs s) t) as [[]|] eqn:P; try discriminate. destruct (nth_error (owners s) o) as [r|] eqn:O; [|discriminate].
    destruct (busy s o || _); [discriminate|].
    assert (F : forall x, x = finish s t o j -> made s <= made x /\ ((present (cells x c) = present (cells s c) /\ destroyed (cells x c) = destroyed (cells s c)))).
    { intros x ->. split; [apply finish_made|]. rewrite finish_cells by exact L. auto. }
    destruct r as [c'|]; [destruct (present (cells s c'))|]; injection E as <-; try (destruct (F _ eq_refl); auto); auto.
  - destruct (nth_error (owners s) o) as [r|]; [|discriminate]. destruct (busy s o); [discriminate|]. injection E as <-. auto.
  - destruct (nth_error (owners s) o) as [r|]; [|discriminate]. destruct (busy s o); [discriminate|]. injection E as <-. auto.
  - destruct (nth_error (lessees s) l); [|discriminate]. injection E as <-. auto.
  - destruct (nth_error (lessees s) l); [|discriminate]. injection E as <-. auto.
  - unfold lessee_bool in E. destruct (nth_error (lessees s) l) as [[]|]; try discriminate; injection E as <-; auto.
  - unfold call_lock in E. destruct (nth_error (mpcs s) t) as [[]|]; try discriminate. destruct (nth_error (lessees s) l) as [[]|]; try discriminate; destruct w; injection E as <-; auto.
  - unfold mrun in E. destruct (nth_error (mpcs s) t) as [p|] eqn:P; [|discriminate].
    destruct p as [|o c' j|o c' j|o c' j|o c' j|c'|c'|c'|c'|c'|c'|c'|c']; try discriminate.
    + destruct (may_own (cells s c')); [|discriminate]. injection E as <-. split; auto. left. cbn. unfold put. destruct (Nat.eqb_spec c c') as [->|]; auto.
    + destruct (Nat.eq_dec c c') as [<-|N]; [|].
      * split; [|eauto 8]. destruct (present (cells s c)); injection E as <-; auto.
      * destruct (present (cells s c')); injection E as <-; split; auto. left. cbn. rewrite put_other by exact N. auto.
    + injection E as <-. split; auto. destruct (Nat.eq_dec c c') as [<-|N].
      * right. right. exists t, o, j. cbn. rewrite put_same. auto.
      * left. cbn. rewrite put_other by exact N. auto.
    + injection E as <-. rewrite finish_cells by exact L. cbn. split; [|left; unfold put; destruct (Nat.eqb_spec c c') as [->|]; auto].
      match goal with |- _ <= made (finish ?x _ _ _) => change (made s) with (made x); apply finish_made end.
    + destruct (may_share (cells s c')); [|discriminate]. injection E as <-. split; auto. left. cbn. unfold put. destruct (Nat.eqb_spec c c') as [->|]; auto.
    + destruct (may_share (cells s c')); [|discriminate]. injection E as <-. split; auto. left. cbn. unfold put. destruct (Nat.eqb_spec c c') as [->|]; auto.
    + destruct (present _); injection E as <-; auto. destruct (unshare_data (read_reference s c') c' c) as (U1 & U2 & U3). cbn. rewrite U1, U2, U3. auto.
    + destruct (may_share (cells s c')); [|discriminate]. injection E as <-. split; auto. left. cbn. unfold put. destruct (Nat.eqb_spec c c') as [->|]; auto.
    + destruct (present _); injection E as <-; auto. destruct (unshare_data (read_reference s c') c' c) as (U1 & U2 & U3). cbn. rewrite U1, U2, U3. auto.
    + injection E as <-; auto. destruct (unshare_data s c' c) as (U1 & U2 & U3). cbn. rewrite U1, U2, U3. auto.
    + injection E as <-. auto.
    + injection E as <-. auto.
  - destruct (nth_error (guards s) g) as [[c'|]|]; try discriminate. destruct (present (cells s c')); [|discriminate]. injection E as <-. auto.
  - destruct (nth_error (guards s) g) as [r|]; [|discriminate]. injection E as <-. auto.
  - destruct (nth_error (guards s) g); [|discriminate]. destruct (nth_error (guards s) g'); [|discriminate]. destruct (g =? g'); injection E as <-; auto.
  - destruct (nth_error (guards s) g) as [[c'|]|]; try discriminate; injection E as <-; auto. destruct (unshare_data s c' c) as (U1 & U2 & U3). cbn. rewrite U1, U2, U3. auto.
  - unfold collect in E. destruct ((d <? made s) && negb (collected (cells s d)) && negb (referred s d)) eqn:A; [|discriminate]. destruct (may_own (cells s d)); [|discriminate]. injection E as <-.
    apply andb_true_iff in A. destruct A as [A RF]. apply andb_true_iff in A. destruct A as [Ld _]. apply Nat.ltb_lt in Ld. split; auto. left. cbn. unfold put. destruct (Nat.eqb_spec c d) as [->|]; auto.
    destruct (present (cells s d)) eqn:PR; [|auto]. exfalso. destruct (o_here _ J d Ld PR) as [o O]. unfold referred in RF. assert (X : existsb (refers d) (owners s) = true).
    { apply existsb_exists. exists (Some d). split; [eapply nth_error_In; eauto|cbn; apply Nat.eqb_refl]. }
    rewrite X in RF. discriminate.
Qed.

Lemma destroy_step_lemma allowed n s : mreachable allowed n s -> forall l s' c, mstep s l = Some s' -> c < made s -> destroyed (cells s' c) <> destroyed (cells s c) -> ~ guarded s c.
Proof.
  intros R l s' c E L D G. destruct (reach_inv _ _ _ R) as [I J]. destruct (data_step _ _ _ _ I J E L) as [_ [[_ X]|[(t & o & k & P & ->)|(t & o & k & _ & _ & _ & X)]]]; try congruence.
  destruct (guarded_shared _ _ _ _ I G) as [S _]. apply S, (i_ex3 _ _ _ I); [exact L|]. rewrite (i_ex1 _ _ _ I _ _ c P); [discriminate|]. cbn. apply one_eqb.
Qed.

Lemma reach_steps allowed n s ls s' : mreachable allowed n s -> msteps s ls = Some s' -> mreachable anything n s'.
Proof.
  intros R. assert (R' : mreachable anything n s) by (induction R; [constructor|econstructor; eauto; exact I]). clear R. revert s R'.
  induction ls as [|l ls IH]; intros s R E; cbn in E; [injection E as <-; exact R|]. destruct (mstep s l) as [s1|] eqn:S; [|discriminate]. apply (IH s1); [|exact E]. econstructor; eauto. exact I.
Qed.

(** raw pointers are read from existing data *)
Lemma raw_lemma allowed n s : mreachable allowed n s -> forall t c, nth_error (mpcs s) t = Some (MRaw c) -> present (cells s c) = true.
Proof.
  induction 1 as [|s l s' R IH A E]; intros t c P.
  - cbn in P. apply nth_all in P. discriminate.
  - destruct (reach_inv _ _ _ R) as [I J].
    assert (X : nth_error (mpcs s) t = Some (MRaw c) \/ (nth_error (mpcs s) t = Some (MCheckA c) /\ present (cells s c) = true)).
    { clear IH R I J.
      destruct l as [|u o j|o|o|l|l|l|u l w|u|g|g|g g'|g|d]; cbn [mstep] in E.
      - injection E as <-. auto.
      - unfold call_reset in E. destruct (nth_error (mpcs s) u) as [[]|]; try discriminate. destruct (nth_error (owners s) o) as [r|]; [|discriminate]. destruct (busy s o || _); [discriminate|].
        destruct r as [c'|]; [destruct (present (cells s c'))|]; injection E as <-; rewrite ?finish_pcs in P; try (apply nth_upd in P; destruct P as [[_ P]|[_ P]]; [discriminate|auto]).
      - destruct (nth_error (owners s) o); [|discriminate]. destruct (busy s o); [discriminate|]. injection E as <-. auto.
      - destruct (nth_error (owners s) o); [|discriminate]. destruct (busy s o); [discriminate|]. injection E as <-. auto.
      - destruct (nth_error (lessees s) l); [|discriminate]. injection E as <-. auto.
      - destruct (nth_error (lessees s) l); [|discriminate]. injection E as <-. auto.
      - unfold lessee_bool in E. destruct (nth_error (lessees s) l) as [[]|]; try discriminate; injection E as <-; auto.
      - unfold call_lock in E. destruct (nth_error (mpcs s) u) as [[]|]; try discriminate. destruct (nth_error (lessees s) l) as [[]|]; try discriminate; destruct w; injection E as <-; auto;
          apply nth_upd in P; destruct P as [[_ P]|[_ P]]; [discriminate|auto|discriminate|auto|discriminate|auto].
      - unfold mrun in E. destruct (nth_error (mpcs s) u) as [p|] eqn:Pu; [|discriminate].
        destruct p as [|o c' j|o c' j|o c' j|o c' j|c'|c'|c'|c'|c'|c'|c'|c']; try discriminate;
          try (destruct (may_own _); [|discriminate]); try (destruct (may_share _); [|discriminate]);
          try (destruct (present (cells (read_reference s c') c')) eqn:PR); try (destruct (present (cells s c')) eqn:PR');
          injection E as <-; rewrite ?finish_pcs in P; cbn in P; rewrite ?unshare_pcs in P; cbn in P;
          apply nth_upd in P; destruct P as [[-> P]|[_ P]]; try discriminate; auto.
        all: injection P as <-; right; auto.
      - destruct (nth_error (guards s) g) as [[c'|]|]; try discriminate. destruct (present (cells s c')); [|discriminate]. injection E as <-. auto.
      - destruct (nth_error (guards s) g) as [r|]; [|discriminate]. injection E as <-. auto.
      - destruct (nth_error (guards s) g); [|discriminate]. destruct (nth_error (guards s) g'); [|discriminate]. destruct (g =? g'); injection E as <-; auto.
      - destruct (nth_error (guards s) g) as [[c'|]|]; try discriminate; injection E as <-; auto. cbn in P. rewrite unshare_pcs in P. auto.
      - unfold collect in E. destruct (_ && may_own (cells s d)); [|discriminate]. injection E as <-. auto. }
    assert (Y : present (cells s c) = true /\ guarded s c).
    { destruct X as [X|[X Z]]; (split; [eauto|]); right; exists t; eexists; split; try exact X; unfold guarding; auto. }
    destruct Y as [Y G]. destruct (guarded_shared _ _ _ _ I G) as [S L]. destruct (data_step _ _ _ _ I J E L) as [_ [[-> _]|[(u & o & k & Q & ->)|(u & o & k & Q & -> & _)]]]; [exact Y| |];
      exfalso; apply S, (i_ex3 _ _ _ I); auto; rewrite (i_ex1 _ _ _ I _ _ c Q); try discriminate; cbn; apply one_eqb.
Qed.

(** ** Nothing is obtained from data that is gone *)
Lemma finish_events s t o k : exists e, mevents (finish s t o k) = e :: mevents s /\ (e = EReset t o \/ e = ERefused t o).
Proof. unfold finish. destruct k as [|[]|o']; cbn; eauto. destruct (nth_error (owners s) o'); cbn; eauto. Qed.
Lemma unshare_events s c : mevents (unshare s c) = mevents s.
Proof. unfold unshare. destruct (sharing (cells s c)); reflexivity. Qed.

Lemma event_step s l s' : mstep s l = Some s' -> exists new, mevents s' = new ++ mevents s /\
  forall t c, (In (EGuard t c) new -> nth_error (mpcs s) t = Some (MCheckX c) /\ present (cells s c) = true) /\ (In (EArrow t c) new -> nth_error (mpcs s) t = Some (MRaw c)).
Proof.
  assert (NIL : forall x, mevents x = mevents s -> exists new, mevents x = new ++ mevents s /\
     forall t c, (In (EGuard t c) new -> nth_error (mpcs s) t = Some (MCheckX c) /\ present (cells s c) = true) /\ (In (EArrow t c) new -> nth_error (mpcs s) t = Some (MRaw c))).
  { intros x ->. exists []. split; [reflexivity|]. intros t c. cbn. tauto. }
  assert (ONE : forall x e, mevents x = e :: mevents s -> (forall t c, (e = EGuard t c -> nth_error (mpcs s) t = Some (MCheckX c) /\ present (cells s c) = true) /\ (e = EArrow t c -> nth_error (mpcs s) t = Some (MRaw c))) ->
     exists new, mevents x = new ++ mevents s /\
     forall t c, (In (EGuard t c) new -> nth_error (mpcs s) t = Some (MCheckX c) /\ present (cells s c) = true) /\ (In (EArrow t c) new -> nth_error (mpcs s) t = Some (MRaw c))).
  { intros x e -> H. exists [e]. split; [reflexivity|]. intros t c. destruct (H t c) as [H1 H2]. split; intros [X|[]]; auto. }
  assert (FIN : forall x t o k, mevents x = mevents s -> exists new, mevents (finish x t o k) = new ++ mevents s /\
     forall t c, (In (EGuard t c) new -> nth_error (mpcs s) t = Some (MCheckX c) /\ present (cells s c) = true) /\ (In (EArrow t c) new -> nth_error (mpcs s) t = Some (MRaw c))).
  { intros x t o k X. destruct (finish_events x t o k) as (e & -> & H). rewrite X. exists [e]. split; [reflexivity|]. intros t' c. split; intros [Y|[]]; exfalso; destruct H; congruence. }
  destruct l as [|u o j|o|o|l|l|l|u l w|u|g|g|g g'|g|d]; cbn [mstep]; intros E.
  - injection E as <-. auto.
  - unfold call_reset in E. destruct (nth_error (mpcs s) u) as [[]|]; try discriminate. destruct (nth_error (owners s) o) as [r|]; [|discriminate]. destruct (busy s o || _); [discriminate|].
    destruct r as [c'|]; [destruct (present (cells s c'))|]; injection E as <-; auto.
  - destruct (nth_error (owners s) o); [|discriminate]. destruct (busy s o); [discriminate|]. injection E as <-. auto.
  - destruct (nth_error (owners s) o); [|discriminate]. destruct (busy s o); [discriminate|]. injection E as <-. auto.
  - destruct (nth_error (lessees s) l); [|discriminate]. injection E as <-. auto.
  - destruct (nth_error (lessees s) l); [|discriminate]. injection E as <-. auto.
  - unfold lessee_bool in E. destruct (nth_error (lessees s) l) as [[]|]; try discriminate; injection E as <-; eapply ONE; try reflexivity; intros; split; discriminate.
  - unfold call_lock in E. destruct (nth_error (mpcs s) u) as [[]|]; try discriminate.
    destruct (nth_error (lessees s) l) as [[]|]; try discriminate; destruct w; injection E as <-; auto; eapply ONE; try reflexivity; intros; split; discriminate.
  - unfold mrun in E. destruct (nth_error (mpcs s) u) as [p|] eqn:Pu; [|discriminate].
    destruct p as [|o c' j|o c' j|o c' j|o c' j|c'|c'|c'|c'|c'|c'|c'|c']; try discriminate;
      try (destruct (may_own _); [|discriminate]); try (destruct (may_share _); [|discriminate]).
    + injection E as <-. auto.
    + destruct (present (cells s c')); injection E as <-; auto.
    + injection E as <-. auto.
    + injection E as <-. apply FIN. reflexivity.
    + injection E as <-. auto.
    + injection E as <-. auto.
    + change (cells (read_reference s c') c') with (cells s c') in E. destruct (present (cells s c')) eqn:PR; injection E as <-.
      * eapply ONE; [reflexivity|]. intros t c. split; intros X; inversion X; subst. auto.
      * eapply ONE; [cbn; rewrite unshare_events; reflexivity|]. intros t c. split; discriminate.
    + injection E as <-. auto.
    + change (cells (read_reference s c') c') with (cells s c') in E. destruct (present (cells s c')) eqn:PR; injection E as <-; auto.
      eapply ONE; [cbn; rewrite unshare_events; reflexivity|]. intros t c. split; discriminate.
    + injection E as <-. eapply ONE; [cbn; rewrite unshare_events; reflexivity|]. intros t c. split; intros X; inversion X; subst. auto.
    + injection E as <-. auto.
    + injection E as <-. auto.
  - destruct (nth_error (guards s) g) as [[c'|]|]; try discriminate. destruct (present (cells s c')); [|discriminate]. injection E as <-. auto.
  - destruct (nth_error (guards s) g) as [r|]; [|discriminate]. injection E as <-. auto.
  - destruct (nth_error (guards s) g); [|discriminate]. destruct (nth_error (guards s) g'); [|discriminate]. destruct (g =? g'); injection E as <-; auto.
  - destruct (nth_error (guards s) g) as [[c'|]|]; try discriminate; injection E as <-; apply NIL; auto. cbn. apply unshare_events.
  - unfold collect in E. destruct (_ && may_own (cells s d)); [|discriminate]. injection E as <-. auto.
Qed.

Lemma gone_step s l s' c : i1 false (fun _ => 0) s -> i2 s -> mstep s l = Some s' -> c < made s -> present (cells s c) = false -> present (cells s' c) = false.
Proof.
  intros I J E L P. destruct (data_step _ _ _ _ I J E L) as [_ [[-> _]|[(t & o & k & Q & ->)|(t & o & k & Q & -> & H & _)]]]; auto.
  pose proof (d_pc _ J _ _ _ _ _ _ Q eq_refl) as X. cbn in X. congruence.
Qed.

Lemma gone_lemma allowed n s : mreachable allowed n s -> forall c, c < made s -> ~ has_owner s c -> forall ls s', msteps s ls = Some s' ->
  (exists new, mevents s' = new ++ mevents s /\ forall t, ~ In (EGuard t c) new /\ ~ In (EArrow t c) new) /\
  present (cells s' c) = false /\ (forall g, nth_error (guards s') g = Some (Some c) -> mstep s' (UseGuard g) = None).
Proof.
  intros R c L O ls s' E. assert (P : present (cells s c) = false) by (apply (once_lemma _ _ _ R c L); exact O).
  assert (R' : mreachable anything n s) by (apply (reach_steps _ _ _ [] s R); reflexivity). clear R O.
  assert (X : (exists new, mevents s' = new ++ mevents s /\ forall t, ~ In (EGuard t c) new /\ ~ In (EArrow t c) new) /\ present (cells s' c) = false).
  { revert s R' L P E. induction ls as [|l ls IH]; intros s R L P E; cbn in E.
    - injection E as <-. split; [|exact P]. exists []. split; auto.
    - destruct (mstep s l) as [s1|] eqn:S; [|discriminate]. destruct (reach_inv _ _ _ R) as [I J].
      destruct (event_step _ _ _ S) as (n1 & E1 & H1). pose proof (gone_step _ _ _ _ I J S L P) as P1. destruct (data_step _ _ _ _ I J S L) as [M _].
      destruct (IH s1) as [(n2 & E2 & H2) P2]; auto.
      + econstructor; eauto. exact Logic.I.
      + eapply Nat.lt_le_trans; eauto.
      + split; [|exact P2]. exists (n2 ++ n1). split; [rewrite E2, E1, app_assoc; reflexivity|]. intros t. destruct (H2 t) as [A B]. destruct (H1 t c) as [A1 B1].
        split; intros Y; apply in_app_iff in Y; destruct Y as [Y|Y]; auto.
        * destruct (A1 Y). congruence.
        * pose proof (raw_lemma _ _ _ R _ _ (B1 Y)). congruence. }
  destruct X as [X Y]. split; [exact X|]. split; [exact Y|]. intros g G. cbn. rewrite G, Y. reflexivity.
Qed.

(** ** Nothing destroyed is used *)
Definition not_arrow (p : mpc) : Prop := match p with MShareA _ | MCheckA _ | MRaw _ | MMethod _ | MRunning _ => False | _ => True end.

Lemma not_arrow_lemma n s : mreachable no_arrow n s -> forall t p, nth_error (mpcs s) t = Some p -> not_arrow p.
Proof.
  induction 1 as [|s l s' R IH A E]; intros t p P.
  - cbn in P. apply nth_all in P. subst p. exact I.
  - assert (U : forall u q, nth_error (upd (mpcs s) u q) t = Some p -> not_arrow q -> not_arrow p).
    { intros u q Q N. apply nth_upd in Q. destruct Q as [[_ ->]|[_ Q]]; eauto. }
    destruct l as [|u o j|o|o|l|l|l|u l w|u|g|g|g g'|g|d]; cbn [mstep] in E.
    + injection E as <-. eauto.
    + unfold call_reset in E. destruct (nth_error (mpcs s) u) as [[]|]; try discriminate. destruct (nth_error (owners s) o) as [r|]; [|discriminate]. destruct (busy s o || _); [discriminate|].
      destruct r as [c'|]; [destruct (present (cells s c'))|]; injection E as <-; rewrite ?finish_pcs in P; (eapply U; [exact P|exact I]).
    + destruct (nth_error (owners s) o); [|discriminate]. destruct (busy s o); [discriminate|]. injection E as <-. eauto.
    + destruct (nth_error (owners s) o); [|discriminate]. destruct (busy s o); [discriminate|]. injection E as <-. eauto.
    + destruct (nth_error (lessees s) l); [|discriminate]. injection E as <-. eauto.
    + destruct (nth_error (lessees s) l); [|discriminate]. injection E as <-. eauto.
    + unfold lessee_bool in E. destruct (nth_error (lessees s) l) as [[]|]; try discriminate; injection E as <-; eauto.
    + unfold call_lock in E. destruct (nth_error (mpcs s) u) as [[]|]; try discriminate. cbn in A.
      destruct (nth_error (lessees s) l) as [[]|]; try discriminate; destruct w; try (exfalso; exact A); injection E as <-; eauto; (eapply U; [exact P|exact I]).
    + unfold mrun in E. destruct (nth_error (mpcs s) u) as [q|] eqn:Pu; [|discriminate]. pose proof (IH _ _ Pu) as N.
      destruct q as [|o c' j|o c' j|o c' j|o c' j|c'|c'|c'|c'|c'|c'|c'|c']; try discriminate; try (exfalso; exact N);
        try (destruct (may_own _); [|discriminate]); try (destruct (may_share _); [|discriminate]); try (destruct (present _));
        injection E as <-; rewrite ?finish_pcs in P; cbn in P; rewrite ?unshare_pcs in P; (eapply U; [exact P|exact I]).
    + destruct (nth_error (guards s) g) as [[c'|]|]; try discriminate. destruct (present (cells s c')); [|discriminate]. injection E as <-. eauto.
    + destruct (nth_error (guards s) g) as [r|]; [|discriminate]. injection E as <-. eauto.
    + destruct (nth_error (guards s) g); [|discriminate]. destruct (nth_error (guards s) g'); [|discriminate]. destruct (g =? g'); injection E as <-; eauto.
    + destruct (nth_error (guards s) g) as [[c'|]|]; try discriminate; injection E as <-; eauto. cbn in P. rewrite unshare_pcs in P. eauto.
    + unfold collect in E. destruct (_ && may_own (cells s d)); [|discriminate]. injection E as <-. eauto.
Qed.

Lemma unshare_flags s c : sharing (cells s c) <> 0 -> misused (unshare s c) = misused s /\ raced (unshare s c) = raced s.
Proof. unfold unshare. destruct (sharing (cells s c)); [congruence|]. auto. Qed.
Lemma finish_flags s t o k : misused (finish s t o k) = misused s /\ raced (finish s t o k) = raced s.
Proof. unfold finish. destruct k as [|[]|o']; cbn; auto. destruct (nth_error (owners s) o'); auto. Qed.
Lemma no_nulling s c : number_of (half c) (mpcs s) = 0 -> existsb (nulling c) (mpcs s) = false.
Proof.
  intros N. destruct (existsb (nulling c) (mpcs s)) eqn:E; [|reflexivity]. exfalso. apply existsb_exists in E. destruct E as (p & In & H). apply In_nth_error in In. destruct In as [t T].
  pose proof (number_ge (half c) _ _ _ T) as G. unfold half in G at 1. rewrite H in G. cbn in G. lia.
Qed.

(** what a step does to the two flags *)
Definition asks (l : mlabel) : Prop := match l with AskLessee _ => True | _ => False end.
Definition runs_arrow (s : mstate) (l : mlabel) : Prop := exists t c, l = MRun t /\ (nth_error (mpcs s) t = Some (MMethod c) \/ nth_error (mpcs s) t = Some (MRunning c)).

Lemma flags_step allowed n s l s' : mreachable allowed n s -> mstep s l = Some s' ->
  (raced s' = raced s \/ asks l) /\ (misused s' = misused s \/ runs_arrow s l).
Proof.
  intros R E. destruct (reach_inv _ _ _ R) as [I J].
  assert (RR : forall c, guarded s c -> raced (read_reference s c) = raced s).
  { intros c G. destruct (guarded_shared _ _ _ _ I G) as [S L]. cbn. rewrite no_nulling; [apply orb_false_r|]. eapply shared_not_half; eauto. }
  destruct l as [|u o j|o|o|l|l|l|u l w|u|g|g|g g'|g|d]; cbn [mstep] in E.
  - injection E as <-. auto.
  - unfold call_reset in E. destruct (nth_error (mpcs s) u) as [[]|]; try discriminate. destruct (nth_error (owners s) o) as [r|]; [|discriminate]. destruct (busy s o || _); [discriminate|].
    destruct (finish_flags s u o j) as [F1 F2].
    destruct r as [c'|]; [destruct (present (cells s c'))|]; injection E as <-; auto.
  - destruct (nth_error (owners s) o); [|discriminate]. destruct (busy s o); [discriminate|]. injection E as <-. auto.
  - destruct (nth_error (owners s) o); [|discriminate]. destruct (busy s o); [discriminate|]. injection E as <-. auto.
  - destruct (nth_error (lessees s) l); [|discriminate]. injection E as <-. auto.
  - destruct (nth_error (lessees s) l); [|discriminate]. injection E as <-. auto.
  - split; [right; exact Logic.I|]. left. unfold lessee_bool in E. destruct (nth_error (lessees s) l) as [[]|]; try discriminate; injection E as <-; auto. cbn. apply orb_false_r.
  - unfold call_lock in E. destruct (nth_error (mpcs s) u) as [[]|]; try discriminate.
    destruct (nth_error (lessees s) l) as [[]|]; try discriminate; destruct w; injection E as <-; auto.
  - unfold mrun in E. destruct (nth_error (mpcs s) u) as [p|] eqn:Pu; [|discriminate].
    destruct p as [|o c' j|o c' j|o c' j|o c' j|c'|c'|c'|c'|c'|c'|c'|c']; try discriminate;
      try (destruct (may_own _); [|discriminate]); try (destruct (may_share _); [|discriminate]).
    + injection E as <-. auto.
    + destruct (present (cells s c')); injection E as <-; auto.
    + injection E as <-. auto.
    + injection E as <-. match goal with |- context [finish ?a ?b ?c ?d] => destruct (finish_flags a b c d) as [F1 F2] end. rewrite F1, F2. auto.
    + injection E as <-. auto.
    + injection E as <-. auto.
    + assert (G : guarded s c') by (right; exists u; eexists; split; [exact Pu|left; reflexivity]). pose proof (RR _ G) as X. destruct (guarded_shared _ _ _ _ I G) as [S _].
      destruct (unshare_flags (read_reference s c') c' S) as [U1 U2].
      destruct (present (cells (read_reference s c') c')); injection E as <-; cbn [msay mgo mguards raced misused]; rewrite ?U1, ?U2, ?X; cbn; rewrite ?orb_false_r; auto.
    + injection E as <-. auto.
    + assert (G : guarded s c') by (right; exists u; eexists; split; [exact Pu|right; left; reflexivity]). pose proof (RR _ G) as X. destruct (guarded_shared _ _ _ _ I G) as [S _].
      destruct (unshare_flags (read_reference s c') c' S) as [U1 U2].
      destruct (present (cells (read_reference s c') c')); injection E as <-; cbn [msay mgo mguards raced misused]; rewrite ?U1, ?U2, ?X; cbn; rewrite ?orb_false_r; auto.
    + assert (G : guarded s c') by (right; exists u; eexists; split; [exact Pu|right; right; reflexivity]). destruct (guarded_shared _ _ _ _ I G) as [S _].
      destruct (unshare_flags s c' S) as [U1 U2]. injection E as <-. cbn. rewrite U1, U2. auto.
    + injection E as <-. cbn. rewrite orb_false_r. split; [auto|]. right. exists u, c'. auto.
    + injection E as <-. cbn. rewrite orb_false_r. split; [auto|]. right. exists u, c'. auto.
  - destruct (nth_error (guards s) g) as [[c'|]|] eqn:Gg; try discriminate. destruct (present (cells s c')) eqn:PR; [|discriminate]. injection E as <-.
    assert (G : guarded s c') by (left; eauto). pose proof (RR _ G) as X. cbn in X. cbn. pose proof (guard_safe_lemma _ _ _ R _ G PR) as D. rewrite D. cbn. rewrite !orb_false_r. rewrite X. auto.
  - destruct (nth_error (guards s) g) as [r|]; [|discriminate]. injection E as <-. auto.
  - destruct (nth_error (guards s) g); [|discriminate]. destruct (nth_error (guards s) g'); [|discriminate]. destruct (g =? g'); injection E as <-; auto.
  - destruct (nth_error (guards s) g) as [[c'|]|] eqn:Gg; try discriminate; injection E as <-; auto. assert (G : guarded s c') by (left; eauto). destruct (guarded_shared _ _ _ _ I G) as [S _].
    destruct (unshare_flags s c' S) as [U1 U2]. cbn. rewrite U1, U2. auto.
  - unfold collect in E. destruct (_ && may_own (cells s d)); [|discriminate]. injection E as <-. auto.
Qed.

Lemma no_misuse_lemma n s : mreachable no_arrow n s -> misused s = false.
Proof.
  intros R. induction R as [|s l s' R IH A E]; [reflexivity|]. destruct (flags_step _ _ _ _ _ R E) as [_ [H|(t & c & _ & H)]]; [congruence|].
  exfalso. destruct H as [H|H]; exact (not_arrow_lemma _ _ R _ _ H).
Qed.

Lemma no_race_lemma n s : mreachable no_ask n s -> raced s = false.
Proof.
  intros R. induction R as [|s l s' R IH A E]; [reflexivity|]. destruct (flags_step _ _ _ _ _ R E) as [[H|H] _]; [congruence|]. destruct l; cbn in *; tauto.
Qed.

(** ** Progress *)
Lemma inside_runs s t p c : nth_error (mpcs s) t = Some p -> inside c p = 1 -> exists s', mstep s (MRun t) = Some s'.
Proof.
  intros P H. cbn. unfold mrun. rewrite P. destruct p; cbn in H; try discriminate; eauto. destruct (present _); eauto.
Qed.

Lemma lock_progress_lemma allowed n s : mreachable allowed n s -> forall t c, (nth_error (mpcs s) t = Some (MShare c) \/ nth_error (mpcs s) t = Some (MShareX c) \/ nth_error (mpcs s) t = Some (MShareA c)) ->
  (exists s', mstep s (MRun t) = Some s') \/
  (exists u o k s', (nth_error (mpcs s) u = Some (MIn o c k) \/ nth_error (mpcs s) u = Some (MHalf o c k) \/ nth_error (mpcs s) u = Some (MOut o c k)) /\ mstep s (MRun u) = Some s').
Proof.
  intros R t c H. destruct (reach_inv _ _ _ R) as [I J].
  assert (L : c < made s). { destruct H as [H|[H|H]]; apply (b_pc _ (i_b _ _ _ I) _ _ _ H); cbn; apply Nat.eqb_refl. }
  destruct (owned_by (cells s c)) as [u|] eqn:O.
  - right. destruct (i_ex2 _ _ _ I _ _ L O) as (p & P & X). destruct (inside_runs _ _ _ _ P X) as [s' S].
    destruct p as [|o c' j|o c' j|o c' j|o c' j|c'|c'|c'|c'|c'|c'|c'|c']; cbn in X; try discriminate; (destruct (Nat.eqb_spec c' c) as [->|]; [|discriminate]); exists u, o, j, s'; auto.
  - left. cbn. unfold mrun, may_share. destruct H as [H|[H|H]]; rewrite H, O; eauto.
Qed.

Lemma reset_lemma n s : mreachable no_overwrite n s -> forall t o c k, nth_error (mpcs s) t = Some (MReset o c k) -> ~ guarded s c -> exists s', mstep s (MRun t) = Some s'.
Proof.
  intros R t o c k P G. pose proof (reach_exact _ _ R) as I. destruct (reach_inv _ _ _ R) as [_ J].
  assert (L : c < made s). { apply (b_pc _ (i_b _ _ _ I) _ _ _ P). cbn. apply Nat.eqb_refl. }
  pose proof (i_cntx _ _ _ I eq_refl c L) as C. assert (T : total s c = 0).
  { unfold total. assert (T1 : number_of (hold c) (mpcs s) = 0).
    { apply number_zero. intros u p Q. destruct (hold c p) eqn:H; [reflexivity|]. destruct G. right. exists u, p. split; [exact Q|]. unfold guarding.
      destruct p; cbn in H; try discriminate; (destruct (Nat.eqb_spec c0 c) as [->|]; [|discriminate]); auto. }
    assert (T2 : number_of (on c) (guards s) = 0); [|lia].
    apply number_zero. intros u r Q. unfold on. destruct r as [c'|]; cbn; [|reflexivity]. destruct (Nat.eqb_spec c' c) as [->|]; [|reflexivity]. destruct G. left. eauto. }
  assert (O : owned_by (cells s c) = None).
  { destruct (owned_by (cells s c)) as [u|] eqn:O; [|reflexivity]. exfalso. destruct (i_ex2 _ _ _ I _ _ L O) as (p & Q & X).
    assert (exists o' k' f', rphase p = Some (o', c, k', f')) as (o' & k' & f' & Y).
    { destruct p as [|o1 c' j|o1 c' j|o1 c' j|o1 c' j|c'|c'|c'|c'|c'|c'|c'|c']; cbn in X; try discriminate; (destruct (Nat.eqb_spec c' c) as [->|]; [|discriminate]); cbn; eauto. }
    pose proof (alone _ _ _ _ _ _ _ _ _ _ _ _ J P Q eq_refl Y) as Z. rewrite <- Z in Q. rewrite P in Q. injection Q as <-. cbn in X. discriminate. }
  cbn. unfold mrun. rewrite P. unfold may_own. rewrite O. replace (sharing (cells s c)) with 0 by lia. rewrite Nat.eqb_refl. eauto.
Qed.

(** a thread inside a function is moved by its own steps only *)
Lemma others_step s l s' t p : mstep s l = Some s' -> nth_error (mpcs s) t = Some p -> p <> MIdle -> l <> MRun t -> nth_error (mpcs s') t = Some p.
Proof.
  intros E P N NL.
  assert (U : forall u q, u <> t -> nth_error (upd (mpcs s) u q) t = Some p) by (intros; rewrite nth_upd_other by auto; exact P).
  destruct l as [|u o j|o|o|l|l|l|u l w|u|g|g|g g'|g|d]; cbn [mstep] in E.
  - injection E as <-. auto.
  - unfold call_reset in E. destruct (nth_error (mpcs s) u) as [q|] eqn:Pu; [|discriminate]. assert (X : q = MIdle -> u <> t) by (intros -> ->; congruence).
    destruct q; try discriminate. specialize (X eq_refl). destruct (nth_error (owners s) o) as [r|]; [|discriminate]. destruct (busy s o || _); [discriminate|].
    destruct r as [c'|]; [destruct (present (cells s c'))|]; injection E as <-; rewrite ?finish_pcs; cbn; auto.
  - destruct (nth_error (owners s) o); [|discriminate]. destruct (busy s o); [discriminate|]. injection E as <-. auto.
  - destruct (nth_error (owners s) o); [|discriminate]. destruct (busy s o); [discriminate|]. injection E as <-. auto.
  - destruct (nth_error (lessees s) l); [|discriminate]. injection E as <-. auto.
  - destruct (nth_error (lessees s) l); [|discriminate]. injection E as <-. auto.
  - unfold lessee_bool in E. destruct (nth_error (lessees s) l) as [[]|]; try discriminate; injection E as <-; auto.
  - unfold call_lock in E. destruct (nth_error (mpcs s) u) as [q|] eqn:Pu; [|discriminate]. assert (X : q = MIdle -> u <> t) by (intros -> ->; congruence).
    destruct q; try discriminate. specialize (X eq_refl). destruct (nth_error (lessees s) l) as [[]|]; try discriminate; destruct w; injection E as <-; cbn; auto.
  - assert (X : u <> t) by congruence. unfold mrun in E. destruct (nth_error (mpcs s) u) as [q|] eqn:Pu; [|discriminate].
    destruct q as [|o c' j|o c' j|o c' j|o c' j|c'|c'|c'|c'|c'|c'|c'|c']; try discriminate;
      try (destruct (may_own _); [|discriminate]); try (destruct (may_share _); [|discriminate]); try (destruct (present _));
      injection E as <-; rewrite ?finish_pcs; cbn; rewrite ?unshare_pcs; cbn; auto.
  - destruct (nth_error (guards s) g) as [[c'|]|]; try discriminate. destruct (present (cells s c')); [|discriminate]. injection E as <-. auto.
  - destruct (nth_error (guards s) g) as [r|]; [|discriminate]. injection E as <-. auto.
  - destruct (nth_error (guards s) g); [|discriminate]. destruct (nth_error (guards s) g'); [|discriminate]. destruct (g =? g'); injection E as <-; auto.
  - destruct (nth_error (guards s) g) as [[c'|]|]; try discriminate; injection E as <-; auto. cbn. rewrite unshare_pcs. auto.
  - unfold collect in E. destruct (_ && may_own (cells s d)); [|discriminate]. injection E as <-. auto.
Qed.

Lemma stuck_reset k s t o c j : i1 false k s -> k c <> 0 -> nth_error (mpcs s) t = Some (MReset o c j) -> forall ls s', msteps s ls = Some s' -> nth_error (mpcs s') t = Some (MReset o c j).
Proof.
  intros I K P ls. revert s I P. induction ls as [|l ls IH]; intros s I P s' E; cbn in E; [injection E as <-; exact P|].
  destruct (mstep s l) as [s1|] eqn:S; [|discriminate]. apply (IH s1); auto.
  - eapply i1_step; eauto. discriminate.
  - eapply others_step; eauto; [discriminate|]. intros ->. cbn in S. unfold mrun in S. rewrite P in S. unfold may_own in S.
    assert (L : c < made s). { apply (b_pc _ (i_b _ _ _ I) _ _ _ P). cbn. apply Nat.eqb_refl. }
    pose proof (i_cnt _ _ _ I c L) as C. destruct (owned_by (cells s c)); [discriminate|]. destruct (Nat.eqb_spec (sharing (cells s c)) 0); [lia|discriminate].
Qed.

Lemma steps_reach n ls s s' : mreachable anything n s -> msteps s ls = Some s' -> mreachable anything n s'.
Proof. intros R. apply (reach_steps anything). exact R. Qed.

(** guard = lessee.lock(), twice *)
Definition leak_run : list mlabel :=
  [NewOwner; CallReset 0 0 (Renew false); Lease 0; CallLock 1 0 Plain; MRun 1; CallLock 1 0 Plain; MRun 1; AssignGuard 0 1; DropGuard 1; DropGuard 0; CallReset 0 0 Stop].
Lemma leak_lemma : exists s, mreachable anything 2 s /\ nth_error (mpcs s) 0 = Some (MReset 0 0 Stop) /\ (forall c, ~ guarded s c) /\
  forall ls s', msteps s ls = Some s' -> nth_error (mpcs s') 0 = Some (MReset 0 0 Stop).
Proof.
  destruct (msteps (minit 2) leak_run) as [s|] eqn:E; [|vm_compute in E; discriminate]. exists s.
  assert (R : mreachable anything 2 s) by (eapply steps_reach; [constructor|exact E]). split; [exact R|].
  destruct (reach_inv _ _ _ R) as [I _]. vm_compute in E. injection E as E.
  assert (P : nth_error (mpcs s) 0 = Some (MReset 0 0 Stop)) by (rewrite <- E; reflexivity). split; [exact P|]. split.
  - intros c [[g G]|(t & p & Q & H)].
    + rewrite <- E in G. cbn in G. destruct g as [|[|[]]]; cbn in G; discriminate.
    + rewrite <- E in Q. cbn in Q. destruct t as [|[|[]]]; cbn in Q; try discriminate; injection Q as <-; destruct H as [H|[H|H]]; discriminate.
  - apply (stuck_reset (fun c => if c =? 0 then 1 else 0)); auto; [|cbn; discriminate].
    destruct I as [B K C CX E1 E2 E3]. split; auto.
    + intros c L. rewrite <- E in L. cbn in L. destruct c; [lia|reflexivity].
    + intros c L. rewrite <- E in L. cbn in L. assert (c = 0) as -> by lia. rewrite <- E. vm_compute. auto.
Qed.

Definition arrow_run : list mlabel :=
  [NewOwner; CallReset 0 0 (Renew false); Lease 0; CallLock 1 0 Arrow; MRun 1; MRun 1; MRun 1; CallReset 0 0 Stop; MRun 0; MRun 0; MRun 0; MRun 0; MRun 1].
Lemma arrow_lemma : exists s, mreachable anything 2 s /\ misused s = true.
Proof.
  destruct (msteps (minit 2) arrow_run) as [s|] eqn:E; [|vm_compute in E; discriminate]. exists s. split; [eapply steps_reach; [constructor|exact E]|].
  vm_compute in E. injection E as <-. reflexivity.
Qed.

Lemma allowed_steps (allowed : mstate -> mlabel -> Prop) n ls s s' : (forall x l, In l ls -> allowed x l) -> mreachable allowed n s -> msteps s ls = Some s' -> mreachable allowed n s'.
Proof.
  revert s. induction ls as [|l ls IH]; intros s A R E; cbn in E; [injection E as <-; exact R|]. destruct (mstep s l) as [s1|] eqn:S; [|discriminate].
  apply (IH s1); auto; [intros; apply A; right; auto|]. econstructor; eauto. apply A. left. reflexivity.
Qed.

Definition ask_run : list mlabel := [NewOwner; CallReset 0 0 (Renew false); Lease 0; CallReset 0 0 Stop; MRun 0; MRun 0; AskLessee 0].
Lemma ask_lemma : exists s, mreachable no_arrow 1 s /\ raced s = true /\ destroyed (cells s 0) = 1 /\ nth_error (lessees s) 0 = Some (Some 0) /\ nth_error (mevents s) 0 = Some (ELesseeBool 0 true).
Proof.
  destruct (msteps (minit 1) ask_run) as [s|] eqn:E; [|vm_compute in E; discriminate]. exists s. split.
  - eapply allowed_steps; [|constructor|exact E]. intros x l H. cbn in H. repeat (destruct H as [<-|H]; [exact I|]). destruct H.
  - vm_compute in E. injection E as <-. repeat split; reflexivity.
Qed.

Lemma pointer_lemma allowed n s : mreachable allowed n s -> forall t c, nth_error (mpcs s) t = Some (MRaw c) -> present (cells s c) = true /\ destroyed (cells s c) = 0.
Proof.
  intros R t c P. pose proof (raw_lemma _ _ _ R _ _ P) as H. split; [exact H|]. eapply guard_safe_lemma; eauto. right. exists t. eexists. split; [exact P|]. unfold guarding. auto.
Qed.
