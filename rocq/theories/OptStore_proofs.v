From Coq Require Import Lia ZifyBool ZifyNat ZifyN Permutation.
From Verif Require Import OptParser_spec OptParser_proofs.

(** * Memory *)
Definition place_eqb (p q : place) : bool :=
  match p, q with O i, O j | B i, B j => i =? j | _, _ => false end.
Lemma place_eqb_eq p q : place_eqb p q = true <-> p = q.
Proof. destruct p, q; cbn; rewrite ?Nat.eqb_eq; split; congruence. Qed.
Lemma place_eqb_refl p : place_eqb p p = true.
Proof. now apply place_eqb_eq. Qed.
Lemma place_eqb_neq p q : p <> q -> place_eqb p q = false.
Proof. intros H. destruct (place_eqb p q) eqn:E; [|reflexivity]. now apply place_eqb_eq in E. Qed.

Lemma replace_length l i c : length (replace l i c) = length l.
Proof. revert i. induction l as [|x l IH]; intros [|i]; cbn; auto. Qed.
Lemma replace_nth l i c j : nth_error (replace l i c) j = if i =? j then match nth_error l j with Some _ => Some c | None => None end else nth_error l j.
Proof.
  revert i j. induction l as [|x l IH]; intros i j.
  - assert (replace [] i c = []) as -> by (now destruct i). destruct j; cbn [nth_error]; destruct (i =? _); reflexivity.
  - destruct i, j; cbn; try reflexivity. apply IH.
Qed.
Lemma fetch_write m p c q : fetch (write m p c) q = if place_eqb p q then match fetch m q with Some _ => Some c | None => None end else fetch m q.
Proof. destruct p, q; cbn; try reflexivity; apply replace_nth. Qed.
Lemma fetch_change m p f q : fetch (change m p f) q = if place_eqb p q then option_map f (fetch m q) else fetch m q.
Proof.
  unfold change. destruct (fetch m p) as [c|] eqn:E.
  - rewrite fetch_write. destruct (place_eqb p q) eqn:Q; [|reflexivity]. apply place_eqb_eq in Q. subst q. now rewrite E.
  - destruct (place_eqb p q) eqn:Q; [|reflexivity]. apply place_eqb_eq in Q. subst q. now rewrite E.
Qed.
Lemma write_sizes m p c : length (options (write m p c)) = length (options m) /\ length (buffer (write m p c)) = length (buffer m).
Proof. destruct p; cbn; rewrite ?replace_length; now split. Qed.
Lemma change_sizes m p f : length (options (change m p f)) = length (options m) /\ length (buffer (change m p f)) = length (buffer m).
Proof. unfold change. destruct (fetch m p); [apply write_sizes|now split]. Qed.

(** * Linked lists *)
Definition nextlink (ps : list place) (k : nat) : link :=
  match nth_error ps (S k) with Some q => plain q | None => self (hd (O 0) ps) end.
Definition prevlink (ps : list place) (k : nat) : link :=
  match k with 0 => self (List.last ps (O 0)) | S j => plain (nth j ps (O 0)) end.
Definition linked (m : memory) (ps : list place) : Prop :=
  forall k p, nth_error ps k = Some p -> exists c, fetch m p = Some c /\ next_ c = nextlink ps k /\ prev_ c = prevlink ps k.

Lemma linked_frame m m' ps : linked m ps -> (forall p, In p ps -> fetch m' p = fetch m p) -> linked m' ps.
Proof. intros L F k p N. destruct (L k p N) as (c & E & R). exists c. rewrite (F p (nth_error_In _ _ N)). now split. Qed.

Section Links.
Variable m : memory.
Variable ps : list place.
Hypothesis Hl : linked m ps.
Hypothesis Hn : ps <> [].

Lemma hd_nth : nth_error ps 0 = Some (hd (O 0) ps).
Proof. clear Hl. destruct ps; [now elim Hn|reflexivity]. Qed.
Lemma last_nth : nth_error ps (length ps - 1) = Some (List.last ps (O 0)).
Proof.
  clear Hl. destruct (exists_last Hn) as (l & x & E). rewrite E, last_last, app_length. cbn. replace (length l + 1 - 1) with (length l) by lia. rewrite nth_error_app2, Nat.sub_diag by lia. reflexivity.
Qed.
Lemma next_nth k p : nth_error ps k = Some p -> next m p = nth_error ps (S k).
Proof.
  intros N. destruct (Hl k p N) as (c & E & Nx & _). unfold next. rewrite E, Nx. unfold nextlink. destruct (nth_error ps (S k)); reflexivity.
Qed.
Lemma prev_nth k p : nth_error ps k = Some p -> prev m p = match k with 0 => None | S j => nth_error ps j end.
Proof.
  intros N. destruct (Hl k p N) as (c & E & _ & Pv). unfold prev. rewrite E, Pv. unfold prevlink. destruct k as [|j]; [reflexivity|]. cbn.
  symmetry. apply nth_error_nth'. apply nth_error_Some_lt || idtac. assert (S j < length ps) by (apply nth_error_Some; congruence). lia.
Qed.
Lemma first_nth k p fuel : nth_error ps k = Some p -> k < fuel -> first_from fuel m p = Some (hd (O 0) ps).
Proof.
  revert fuel p. induction k as [|k IH]; intros [|f] p N F; try lia; cbn [first_from]; destruct (Hl _ p N) as (c & E & _ & Pv); rewrite E, Pv; cbn [prevlink tagged self plain to].
  - rewrite hd_nth in N. congruence.
  - apply IH; [|lia]. apply nth_error_nth'. assert (S k < length ps) by (apply nth_error_Some; congruence). lia.
Qed.
Lemma follow_nth k p fuel : nth_error ps k = Some p -> length ps - k <= fuel -> follow (next m) fuel p = skipn k ps.
Proof.
  revert k p. induction fuel as [|f IH]; intros k p N F.
  - assert (k < length ps) by (apply nth_error_Some; congruence). lia.
  - cbn [follow]. rewrite (next_nth k p N). 
    assert (Sk : skipn k ps = p :: skipn (S k) ps). { clear -N. revert k N. induction ps as [|x l IHl]; intros [|k] N; try discriminate; cbn in *; [now injection N as ->|]. now rewrite (IHl k N). }
    rewrite Sk. f_equal. destruct (nth_error ps (S k)) as [q|] eqn:N'; [apply IH; [exact N'|lia]|].
    symmetry. apply skipn_all2. now apply nth_error_None.
Qed.
Lemma count_nth k p fuel c : nth_error ps k = Some p -> length ps - k <= fuel -> count_from fuel m p c = Some (c + (length ps - k) - 1).
Proof.
  revert k p c. induction fuel as [|f IH]; intros k p c N F; assert (k < length ps) by (apply nth_error_Some; congruence); [lia|].
  cbn [count_from]. rewrite (next_nth k p N). destruct (nth_error ps (S k)) as [q|] eqn:N'.
  - rewrite (IH (S k) q (S c) N') by lia. f_equal. assert (S k < length ps) by (apply nth_error_Some; congruence). lia.
  - apply nth_error_None in N'. f_equal. lia.
Qed.
End Links.

(** * What is stored *)
Definition positions (i : nat) (os : list opt) : list nat :=
  filter (fun k => match nth_error os k with Some o => N.to_nat (index (desc o)) =? i | None => false end) (seq 0 (length os)).
Lemma positions_snoc i os o : positions i (os ++ [o]) = positions i os ++ if N.to_nat (index (desc o)) =? i then [length os] else [].
Proof.
  unfold positions. rewrite app_length. cbn [length]. rewrite Nat.add_1_r, seq_S, filter_app. f_equal.
  - apply filter_ext_in. intros k K. apply in_seq in K. now rewrite nth_error_app1 by lia.
  - cbn. now rewrite nth_error_app2, Nat.sub_diag by lia.
Qed.
Lemma positions_lt i os k : In k (positions i os) -> k < length os.
Proof. unfold positions. intros H. apply filter_In in H. destruct H as [H _]. apply in_seq in H. lia. Qed.
Lemma positions_nodup i os : NoDup (positions i os).
Proof. apply NoDup_filter, seq_NoDup. Qed.
Lemma positions_index i os k o : In k (positions i os) -> nth_error os k = Some o -> N.to_nat (index (desc o)) = i.
Proof. unfold positions. intros H N. apply filter_In in H. destruct H as [_ H]. rewrite N in H. now apply Nat.eqb_eq. Qed.

Definition places (i : nat) (os : list opt) : list place :=
  match positions i os with [] => [] | _ :: ks => O i :: map B ks end.

Record inv (m : memory) (os : list opt) : Prop := {
  i_room : length os <= length (buffer m);
  i_buf : forall k o, nth_error os k = Some o -> exists c, fetch m (B k) = Some c /\ content c = Some o;
  i_free : forall k, length os <= k < length (buffer m) -> fetch m (B k) = Some (single (B k) None);
  i_empty : forall i, i < length (options m) -> positions i os = [] -> fetch m (O i) = Some (single (O i) None);
  i_head : forall i k ks, i < length (options m) -> positions i os = k :: ks -> exists c, fetch m (O i) = Some c /\ content c = nth_error os k;
  i_linked : forall i, i < length (options m) -> linked m (places i os) }.

Lemma map_single_nth (f : nat -> place) n k : k < n -> nth_error (map (fun i => single (f i) None) (seq 0 n)) k = Some (single (f k) None).
Proof. intros H. rewrite nth_error_map. rewrite (nth_error_nth' _ 0) by (rewrite seq_length; exact H). cbn. now rewrite seq_nth. Qed.
Lemma inv_init o b : inv (empty_arrays o b) [].
Proof.
  constructor; cbn [options buffer empty_arrays]; rewrite ?map_length, ?seq_length; cbn; try lia.
  - intros [|k] x H; discriminate H.
  - intros k H. apply (map_single_nth B). lia.
  - intros i H _. now apply (map_single_nth O).
  - intros i k ks _ H. discriminate H.
  - intros i _ [|k] p H; discriminate H.
Qed.

Lemma in_places i os p : In p (places i os) -> p = O i \/ exists k, p = B k /\ In k (positions i os).
Proof.
  unfold places. destruct (positions i os) as [|k ks] eqn:E; [intros []|]. intros [<-|H]; [now left|]. right. apply in_map_iff in H.
  destruct H as (x & <- & H). exists x. split; [reflexivity|now right].
Qed.
Lemma places_index i j os k : In (B k) (places i os) -> In k (positions j os) -> i = j.
Proof.
  intros H1 H2. apply in_places in H1. destruct H1 as [H1|(x & [= ->] & H1)]; [discriminate H1|].
  assert (L := positions_lt _ _ _ H1). destruct (nth_error os x) as [y|] eqn:N; [|apply nth_error_None in N; lia].
  rewrite <- (positions_index _ _ _ _ H1 N). exact (positions_index _ _ _ _ H2 N).
Qed.

Lemma nth_error_snoc {X} (l : list X) x k y : nth_error (l ++ [x]) k = Some y -> nth_error l k = Some y /\ k < length l \/ k = length l /\ y = x.
Proof.
  intros H. destruct (Nat.lt_ge_cases k (length l)) as [L|L].
  - rewrite nth_error_app1 in H by exact L. now left.
  - rewrite nth_error_app2 in H by exact L. destruct (k - length l) as [|j] eqn:E; [right; cbn in H; split; [lia|congruence]|]. destruct j; discriminate H.
Qed.

(** the links after an append *)
Lemma append_linked m ps new o m' at_ k0 :
  linked m ps -> NoDup ps -> nth_error ps k0 = Some at_ -> length ps <= size m -> ~ In new ps ->
  fetch m new = Some (single new (Some o)) -> append m at_ new = Some m' ->
  linked m' (ps ++ [new]) /\
  (forall q, ~ In q ps -> q <> new -> fetch m' q = fetch m q) /\
  (forall q c, fetch m q = Some c -> exists c', fetch m' q = Some c' /\ content c' = content c) /\
  length (options m') = length (options m) /\ length (buffer m') = length (buffer m).
Proof.
  intros L ND Nk Sz Ni Fn Ap.
  assert (Ne : ps <> []) by (intros ->; destruct k0; discriminate Nk).
  assert (Lk : k0 < length ps) by (apply nth_error_Some; congruence).
  unfold append, last, first in Ap. rewrite (first_nth m ps L Ne k0 at_ (size m) Nk ltac:(lia)) in Ap.
  set (f := hd (O 0) ps) in *. set (p := List.last ps (O 0)).
  assert (N0 : nth_error ps 0 = Some f) by exact (hd_nth ps Ne).
  assert (NL : nth_error ps (length ps - 1) = Some p) by exact (last_nth ps Ne).
  destruct (L 0 f N0) as (cf & Ff & Nf & Pf). rewrite Ff in Ap. cbn [option_map] in Ap. rewrite Pf in Ap. cbn [prevlink to self] in Ap. fold p in Ap.
  assert (Df : f <> new) by (intros E; apply Ni; rewrite <- E; exact (nth_error_In _ _ N0)).
  assert (Dp : p <> new) by (intros E; apply Ni; rewrite <- E; exact (nth_error_In _ _ NL)).
  injection Ap as <-.
  assert (Q : forall q, fetch (change (change (change (change m p (set_next (plain new))) new (set_prev (plain p))) new (set_next (self f))) f (set_prev (self new))) q =
    if place_eqb new q then Some {| content := Some o; next_ := self f; prev_ := plain p |}
    else option_map (fun c => {| content := content c; next_ := if place_eqb p q then plain new else next_ c; prev_ := if place_eqb f q then self new else prev_ c |}) (fetch m q)).
  { intros q. rewrite !fetch_change. destruct (place_eqb new q) eqn:E1.
    - apply place_eqb_eq in E1. subst q. rewrite (place_eqb_neq f new Df), (place_eqb_neq p new Dp), Fn. reflexivity.
    - destruct (place_eqb f q), (place_eqb p q), (fetch m q) as [[c n v]|]; reflexivity. }
  split; [|split; [|split]].
  - intros k q N. apply nth_error_snoc in N. destruct N as [(N & K)|(-> & ->)].
    + destruct (L k q N) as (c & Fc & Nc & Pc). rewrite Q.
      assert (Dq : new <> q) by (intros E; apply Ni; rewrite E; exact (nth_error_In _ _ N)). rewrite (place_eqb_neq new q Dq), Fc. cbn [option_map].
      eexists. split; [reflexivity|]. cbn [next_ prev_]. split.
      * unfold nextlink. destruct (place_eqb p q) eqn:E.
        { apply place_eqb_eq in E. subst q. assert (k = length ps - 1) as ->. { eapply NoDup_nth_error; [exact ND|exact K|]. congruence. }
          rewrite nth_error_app2 by lia. replace (S (length ps - 1) - length ps) with 0 by lia. reflexivity. }
        { rewrite Nc. unfold nextlink. assert (S k < length ps) as K'.
          { destruct (Nat.eq_dec k (length ps - 1)) as [->|X]; [|lia]. rewrite NL in N. injection N as <-. rewrite place_eqb_refl in E. discriminate E. }
          rewrite nth_error_app1 by exact K'. destruct (nth_error ps (S k)) eqn:E'; [reflexivity|]. apply nth_error_None in E'. lia. }
      * destruct (place_eqb f q) eqn:E.
        { apply place_eqb_eq in E. subst q. assert (k = 0) as -> by (eapply NoDup_nth_error; [exact ND|exact K|congruence]). cbn [prevlink]. now rewrite last_last. }
        { rewrite Pc. destruct k as [|j]; [rewrite N0 in N; injection N as <-; rewrite place_eqb_refl in E; discriminate E|]. cbn [prevlink].
          rewrite app_nth1 by lia. reflexivity. }
    + rewrite Q, place_eqb_refl. eexists. split; [reflexivity|]. cbn [next_ prev_]. split.
      * unfold nextlink. assert (nth_error (ps ++ [new]) (S (length ps)) = None) as -> by (apply nth_error_None; rewrite app_length; cbn; lia).
        unfold f. destruct ps; [now elim Ne|reflexivity].
      * unfold prevlink. destruct (length ps) as [|j] eqn:E; [lia|]. rewrite app_nth1 by lia. f_equal. cbn in NL. rewrite Nat.sub_0_r in NL.
        symmetry. now apply nth_error_nth.
  - intros q Nq Dq. rewrite Q. rewrite (place_eqb_neq new q) by congruence.
    rewrite (place_eqb_neq p q) by (intros <-; apply Nq; exact (nth_error_In _ _ NL)).
    rewrite (place_eqb_neq f q) by (intros <-; apply Nq; exact (nth_error_In _ _ N0)). destruct (fetch m q) as [[c n v]|]; reflexivity.
  - intros q c Fc. rewrite Q. destruct (place_eqb new q) eqn:E.
    + apply place_eqb_eq in E. subst q. rewrite Fn in Fc. injection Fc as <-. eexists. split; reflexivity.
    + rewrite Fc. eexists. split; reflexivity.
  - repeat match goal with |- context [change ?x ?y ?z] => let H := fresh in pose proof (change_sizes x y z) as H; destruct H as [-> ->] end. now split.
Qed.

Lemma filter_length_le {X} (f : X -> bool) l : length (filter f l) <= length l.
Proof. induction l as [|x l IH]; cbn; [lia|]. destruct (f x); cbn; lia. Qed.
Lemma places_nodup i os : NoDup (places i os).
Proof.
  unfold places. pose proof (positions_nodup i os) as H. destruct (positions i os) as [|k ks]; [constructor|]. inversion H. subst. constructor.
  - intros I. apply in_map_iff in I. destruct I as (x & E & _). discriminate E.
  - apply FinFun.Injective_map_NoDup; [|assumption]. now intros x y [= ->].
Qed.
Lemma places_size m i os : inv m os -> i < length (options m) -> length (places i os) <= size m.
Proof.
  intros I L. unfold places, size. assert (X : length (positions i os) <= length os).
  { unfold positions. etransitivity; [apply filter_length_le|]. now rewrite seq_length. }
  pose proof (i_room _ _ I). destruct (positions i os) as [|k ks]; cbn in *; [lia|]. rewrite map_length. lia.
Qed.

(** * Storing an option *)
Lemma store_write m os o i : inv m os -> length os < length (buffer m) -> i < length (options m) -> N.to_nat (index (desc o)) = i ->
  let m1 := write m (B (length os)) (single (B (length os)) (Some o)) in
  let stored_ := match option_map content (fetch m1 (O i)) with
    | Some (Some _) => append m1 (O i) (B (length os))
    | _ => Some (write m1 (O i) (single (O i) (Some o))) end in
  exists m', stored_ = Some m' /\ inv m' (os ++ [o]) /\ length (options m') = length (options m) /\ length (buffer m') = length (buffer m).
Proof.
  intros I Lb Li Hi m1 stored_. remember (length os) as n eqn:En.
  assert (F1 : forall q, q <> B n -> fetch m1 q = fetch m q).
  { intros q Dq. unfold m1. rewrite fetch_write, (place_eqb_neq (B n) q) by congruence. reflexivity. }
  assert (Fn : fetch m1 (B n) = Some (single (B n) (Some o))).
  { unfold m1. rewrite fetch_write, place_eqb_refl, (i_free _ _ I n ltac:(lia)). reflexivity. }
  destruct (write_sizes m (B n) (single (B n) (Some o))) as [So Sb]. fold m1 in So, Sb.
  assert (NotIn : forall j, ~ In (B n) (places j os)).
  { intros j H. apply in_places in H. destruct H as [H|(k & [= ->] & H)]; [discriminate H|]. apply positions_lt in H. lia. }
  assert (L1 : forall j, j < length (options m) -> linked m1 (places j os)).
  { intros j Hj. eapply linked_frame; [exact (i_linked _ _ I j Hj)|]. intros p Hp. apply F1. intros ->. exact (NotIn j Hp). }
  assert (Pj : forall j, j <> i -> positions j (os ++ [o]) = positions j os).
  { intros j Dj. rewrite positions_snoc, Hi. destruct (i =? j) eqn:E; [apply Nat.eqb_eq in E; congruence|apply app_nil_r]. }
  assert (Pi : positions i (os ++ [o]) = positions i os ++ [n]) by (rewrite positions_snoc, Hi, Nat.eqb_refl, <- En; reflexivity).
  assert (Qj : forall j, j <> i -> places j (os ++ [o]) = places j os) by (intros j Dj; unfold places; now rewrite Pj).
  assert (Xj : forall j p, j <> i -> In p (places j os) -> ~ In p (places i os)).
  { intros j p Dj H1 H2. pose proof (in_places _ _ _ H1) as K1. destruct K1 as [->|(k & -> & K1)].
    - apply in_places in H2. destruct H2 as [[= H2]|(k & H2 & _)]; [congruence|discriminate H2].
    - apply Dj. symmetry. exact (places_index i j os k H2 K1). }
  assert (Xo : forall j, j <> i -> ~ In (O j) (places i os)).
  { intros j Dj H. apply in_places in H. destruct H as [[= H]|(k & H & _)]; [congruence|discriminate H]. }
  destruct (positions i os) as [|k0 ks] eqn:Po.
  - (* the list of the index is empty *)
    pose proof (i_empty _ _ I i Li Po) as Fo. assert (Fo1 : fetch m1 (O i) = Some (single (O i) None)) by (rewrite F1 by discriminate; exact Fo).
    unfold stored_. rewrite Fo1. cbn [option_map content single]. eexists. split; [reflexivity|].
    destruct (write_sizes m1 (O i) (single (O i) (Some o))) as [So2 Sb2].
    assert (F2 : forall q, q <> O i -> fetch (write m1 (O i) (single (O i) (Some o))) q = fetch m1 q).
    { intros q Dq. rewrite fetch_write, (place_eqb_neq (O i) q) by congruence. reflexivity. }
    assert (F2i : fetch (write m1 (O i) (single (O i) (Some o))) (O i) = Some (single (O i) (Some o))).
    { rewrite fetch_write, place_eqb_refl, Fo1. reflexivity. }
    split; [|split; congruence]. set (m2 := write m1 (O i) (single (O i) (Some o))) in *. constructor.
    + rewrite app_length, Sb2, Sb. cbn. lia.
    + intros k x Nx. apply nth_error_snoc in Nx. rewrite F2 by discriminate. destruct Nx as [(Nx & K)|(-> & ->)].
      * rewrite F1 by (intros [= ->]; lia). exact (i_buf _ _ I k x Nx).
      * rewrite <- En, Fn. eexists. split; reflexivity.
    + intros k Hk. rewrite app_length, Sb2, Sb in Hk. cbn in Hk. rewrite F2 by discriminate. rewrite F1 by (intros [= ->]; lia). apply (i_free _ _ I). lia.
    + intros j Hj E. rewrite So2, So in Hj. destruct (Nat.eq_dec j i) as [->|Dj]; [rewrite Pi in E; discriminate E|]. rewrite Pj in E by exact Dj.
      rewrite F2, F1 by congruence. exact (i_empty _ _ I j Hj E).
    + intros j k ks Hj E. rewrite So2, So in Hj. destruct (Nat.eq_dec j i) as [->|Dj].
      * rewrite Pi in E. injection E as <- <-. rewrite F2i. eexists. split; [reflexivity|]. cbn. rewrite En. now rewrite nth_error_app2, Nat.sub_diag by lia.
      * rewrite Pj in E by exact Dj. rewrite F2, F1 by congruence. destruct (i_head _ _ I j k ks Hj E) as (c & Fc & Cc). exists c. split; [exact Fc|].
        rewrite nth_error_app1; [exact Cc|]. apply (positions_lt j). rewrite E. now left.
    + intros j Hj. rewrite So2, So in Hj. destruct (Nat.eq_dec j i) as [->|Dj].
      * unfold places. rewrite Pi. cbn [app map]. intros [|[|k]] p Np; try discriminate Np. injection Np as <-. rewrite F2i. eexists. split; [reflexivity|]. now split.
      * rewrite Qj by exact Dj. eapply linked_frame; [exact (L1 j Hj)|]. intros p Hp. apply F2. intros ->. apply in_places in Hp. destruct Hp as [[= ->]|(k & Hp & _)]; [now elim Dj|discriminate Hp].
  - (* append *)
    destruct (i_head _ _ I i k0 ks Li Po) as (c0 & Fc0 & Cc0).
    assert (K0 : k0 < length os) by (apply (positions_lt i); rewrite Po; now left).
    destruct (nth_error os k0) as [o0|] eqn:N0; [|apply nth_error_None in N0; lia].
    assert (Fo1 : fetch m1 (O i) = Some c0) by (rewrite F1 by discriminate; exact Fc0).
    unfold stored_. rewrite Fo1. cbn [option_map]. rewrite Cc0.
    assert (Pl : places i os = O i :: map B ks) by (unfold places; now rewrite Po).
    assert (Hd : nth_error (places i os) 0 = Some (O i)) by (rewrite Pl; reflexivity).
    assert (Sz : length (places i os) <= size m1) by (pose proof (places_size m i os I Li) as X; unfold size in *; rewrite So, Sb; exact X).
    assert (Nep : places i os <> []) by (rewrite Pl; discriminate).
    assert (exists m', append m1 (O i) (B n) = Some m') as (m' & Ap).
    { unfold append, last, first. rewrite (first_nth m1 _ (L1 i Li) Nep 0 (O i) (size m1) Hd ltac:(rewrite Pl in Sz; cbn [length] in Sz; lia)).
      rewrite Pl. cbn [hd]. rewrite Fo1. eexists. reflexivity. }
    exists m'. split; [exact Ap|].
    destruct (append_linked m1 (places i os) (B n) o m' (O i) 0 (L1 i Li) (places_nodup i os) Hd Sz (NotIn i) Fn Ap) as (Lk & Fr & Cn & So2 & Sb2).
    split; [|split; congruence]. constructor.
    + rewrite app_length, Sb2, Sb. cbn. lia.
    + intros k x Nx. apply nth_error_snoc in Nx. destruct Nx as [(Nx & K)|(-> & ->)].
      * destruct (i_buf _ _ I k x Nx) as (c & Fc & Cc). assert (Fc1 : fetch m1 (B k) = Some c) by (rewrite F1 by (intros [= ->]; lia); exact Fc).
        destruct (Cn _ _ Fc1) as (c' & Fc' & Cc'). exists c'. split; [exact Fc'|congruence].
      * rewrite <- En. destruct (Cn _ _ Fn) as (c' & Fc' & Cc'). exists c'. split; [exact Fc'|exact Cc'].
    + intros k Hk. rewrite app_length, Sb2, Sb in Hk. cbn in Hk. rewrite Fr.
      * rewrite F1 by (intros [= ->]; lia). apply (i_free _ _ I). lia.
      * intros H. apply in_places in H. destruct H as [H|(x & [= ->] & H)]; [discriminate H|]. apply positions_lt in H. lia.
      * intros [= ->]. lia.
    + intros j Hj E. rewrite So2, So in Hj. destruct (Nat.eq_dec j i) as [->|Dj]; [rewrite Pi in E; discriminate E|]. rewrite Pj in E by exact Dj.
      rewrite Fr by (first [exact (Xo j Dj)|discriminate]). rewrite F1 by discriminate. exact (i_empty _ _ I j Hj E).
    + intros j k ks' Hj E. rewrite So2, So in Hj. destruct (Nat.eq_dec j i) as [->|Dj].
      * rewrite Pi in E. cbn in E. injection E as <- <-. destruct (Cn _ _ Fo1) as (c' & Fc' & Cc'). exists c'. split; [exact Fc'|].
        rewrite nth_error_app1 by exact K0. rewrite N0. congruence.
      * rewrite Pj in E by exact Dj. rewrite Fr by (first [exact (Xo j Dj)|discriminate]). rewrite F1 by discriminate.
        destruct (i_head _ _ I j k ks' Hj E) as (c & Fc & Cc). exists c. split; [exact Fc|].
        rewrite nth_error_app1; [exact Cc|]. apply (positions_lt j). rewrite E. now left.
    + intros j Hj. rewrite So2, So in Hj. destruct (Nat.eq_dec j i) as [->|Dj].
      * replace (places i (os ++ [o])) with (places i os ++ [B n]); [exact Lk|]. rewrite Pl. unfold places. rewrite Pi. cbn. now rewrite map_app.
      * rewrite Qj by exact Dj. eapply linked_frame; [exact (L1 j Hj)|]. intros p Hp. apply Fr; [exact (Xj j p Dj Hp)|]. intros ->. exact (NotIn j Hp).
Qed.

Definition limit : N := 0x7fffffff%N.
Definition storing (bufmax : option nat) (os : list opt) (st : store) : Prop :=
  inv (mem st) os /\ (op_count st = length os \/ exists b, bufmax = Some b /\ b <= length os /\ op_count st = b).
Definition good (m : memory) (o : opt) : Prop := (index (desc o) < 2 ^ 31)%N /\ N.to_nat (index (desc o)) < length (options m).

Lemma store_result bufmax os st o : storing bufmax os st -> (N.of_nat (length (buffer (mem st))) < limit)%N ->
  match store_option bufmax st o with
  | Next st' => storing bufmax (os ++ kept bufmax (length os) [o]) st' /\ length (options (mem st')) = length (options (mem st)) /\ length (buffer (mem st')) = length (buffer (mem st))
  | Refuse _ => False
  | Overrun => (bufmax = None \/ exists b, bufmax = Some b /\ length os < b) /\ (length os = length (buffer (mem st)) \/ ~ good (mem st) o)
  end.
Proof.
  intros (I & C) Lim. unfold store_option. pose proof (i_room _ _ I) as Rm. unfold limit in Lim.
  destruct (match bufmax with Some b => op_count st <? b | None => true end) eqn:D.
  - assert (op_count st = length os) as E. { destruct C as [C|(b & -> & Hb & C)]; [exact C|]. rewrite C in D. lia. }
    rewrite E. assert ((N.of_nat (length os) =? 2147483647)%N = false) as -> by lia.
    assert (Fi : kept bufmax (length os) [o] = [o]). { destruct bufmax as [b|]; [|reflexivity]. cbn. destruct (b - length os) eqn:X; [lia|]. cbn. now rewrite firstn_nil. }
    rewrite Fi. destruct ((length os <? length (buffer (mem st))) && (index (desc o) <? 2 ^ 31)%N && (N.to_nat (index (desc o)) <? length (options (mem st)))) eqn:G.
    + rewrite !andb_true_iff in G. destruct G as [[G1 G2] G3].
      destruct (store_write (mem st) os o _ I ltac:(lia) ltac:(apply Nat.ltb_lt; exact G3) eq_refl) as (m' & Sm & I' & So & Sb). cbv zeta in Sm.
      destruct (option_map content (fetch (write (mem st) (B (length os)) (single (B (length os)) (Some o))) (O (N.to_nat (index (desc o)))))) as [[x|]|].
      * rewrite Sm. cbn. split; [|now split]. split; [exact I'|]. left. cbn. rewrite app_length. cbn. lia.
      * apply (f_equal (fun x => match x with Some y => y | None => mem st end)) in Sm. cbv beta iota in Sm. rewrite Sm. cbn [mem op_count]. split; [|now split]. split; [exact I'|]. left. cbn. rewrite app_length. cbn. lia.
      * apply (f_equal (fun x => match x with Some y => y | None => mem st end)) in Sm. cbv beta iota in Sm. rewrite Sm. cbn [mem op_count]. split; [|now split]. split; [exact I'|]. left. cbn. rewrite app_length. cbn. lia.
    + split; [destruct bufmax as [b|]; [right; exists b; split; [reflexivity|lia]|now left]|].
      destruct (length os <? length (buffer (mem st))) eqn:G1; [|left; lia]. right. intros (G2 & G3). cbn [andb] in G.
      assert ((index (desc o) <? 2 ^ 31)%N = true) as X by (now apply N.ltb_lt). rewrite X in G. cbn [andb] in G. apply Nat.ltb_ge in G. lia.
  - destruct bufmax as [b|]; [|discriminate D]. split; [|now split]. assert (b - length os = 0) as X by (destruct C as [C|(b' & [= <-] & Hb & C)]; lia).
    cbn. rewrite X. cbn. rewrite app_nil_r. now split.
Qed.
Lemma kept_cons bufmax n o os : kept bufmax n (o :: os) = kept bufmax n [o] ++ kept bufmax (n + length (kept bufmax n [o])) os.
Proof.
  destruct bufmax as [b|]; [|reflexivity]. cbn. destruct (b - n) as [|k] eqn:E; cbn; [rewrite Nat.add_0_r, E; reflexivity|].
  rewrite firstn_nil. cbn. replace (b - (n + 1)) with k by lia. reflexivity.
Qed.

Lemma play_result bufmax : forall os os0 st, storing bufmax os0 st -> (N.of_nat (length (buffer (mem st))) < limit)%N ->
  match play (store_option bufmax) st os with
  | Next st' => storing bufmax (os0 ++ kept bufmax (length os0) os) st' /\ length (options (mem st')) = length (options (mem st)) /\ length (buffer (mem st')) = length (buffer (mem st))
  | Refuse _ => False
  | Overrun => length (buffer (mem st)) < length os0 + length os \/ Exists (fun o => ~ good (mem st) o) os
  end.
Proof.
  induction os as [|o os IH]; intros os0 st H Lim; cbn [play].
  - assert (kept bufmax (length os0) [] = []) as -> by (destruct bufmax; cbn; [apply firstn_nil|reflexivity]). rewrite app_nil_r. split; [exact H|now split].
  - pose proof (store_result bufmax os0 st o H Lim) as R. destruct (store_option bufmax st o) as [st1|st1|]; [|exact R|].
    + destruct R as (H1 & So & Sb). specialize (IH _ st1 H1). rewrite Sb in IH. specialize (IH Lim).
      destruct (play (store_option bufmax) st1 os) as [st2|st2|]; [|exact IH|].
      * destruct IH as (H2 & So2 & Sb2). split; [|split; congruence]. rewrite kept_cons, app_assoc. rewrite app_length in H2. exact H2.
      * destruct IH as [IH|IH].
        { left. rewrite app_length in IH. cbn. assert (length (kept bufmax (length os0) [o]) <= 1) by (destruct bufmax as [b|]; cbn; [rewrite firstn_length; cbn; lia|lia]). lia. }
        { right. right. eapply Exists_impl; [|exact IH]. unfold good. now rewrite So. }
    + destruct R as (_ & [R|R]); [left; cbn; lia|right; now left].
Qed.

Lemma used_inv m os : inv m os -> used (buffer m) = length os.
Proof.
  intros I. enough (forall l k, (forall j, j < k -> exists c, nth_error l j = Some c /\ content c <> None) -> (forall c, nth_error l k = Some c -> content c = None) -> used l = k) as G.
  { apply G.
    - intros j Hj. destruct (nth_error os j) as [o|] eqn:N; [|apply nth_error_None in N; lia]. destruct (i_buf _ _ I j o N) as (c & Fc & Cc).
      exists c. split; [exact Fc|congruence].
    - intros c Hc. assert (length os < length (buffer m)) by (apply nth_error_Some; congruence). pose proof (i_free _ _ I (length os) ltac:(lia)) as F. cbn in F. rewrite Hc in F. now injection F as ->. }
  clear. induction l as [|c l IH]; intros k H1 H2.
  - destruct k; [reflexivity|]. destruct (H1 0 ltac:(lia)) as (c & E & _). discriminate E.
  - cbn. destruct k as [|k].
    + rewrite (H2 c eq_refl). reflexivity.
    + destruct (H1 0 ltac:(lia)) as (c' & [= <-] & Hc). destruct (content c); [|now elim Hc]. f_equal. apply IH; [|exact H2]. intros j Hj. exact (H1 (S j) ltac:(lia)).
Qed.
Lemma stored_inv m os : inv m os -> stored m = os.
Proof.
  intros I. unfold stored.
  enough (forall (l : list cell) (os : list opt), (forall k o, nth_error os k = Some o -> exists c, nth_error l k = Some c /\ content c = Some o) ->
    (forall k c, length os <= k -> nth_error l k = Some c -> content c = None) -> flat_map (fun c => match content c with Some o => [o] | None => [] end) l = os) as G.
  { apply G.
    - intros k o N. exact (i_buf _ _ I k o N).
    - intros k c Hk N. assert (k < length (buffer m)) by (apply nth_error_Some; congruence). pose proof (i_free _ _ I k ltac:(lia)) as F. cbn in F. rewrite N in F. now injection F as ->. }
  clear. induction l as [|c l IH]; intros os H1 H2.
  - destruct os as [|o os]; [reflexivity|]. destruct (H1 0 o eq_refl) as (c & E & _). discriminate E.
  - cbn. destruct os as [|o os].
    + rewrite (H2 0 c ltac:(cbn; lia) eq_refl). cbn. apply IH; [intros [|k] o N; discriminate N|]. intros k x _ N. exact (H2 (S k) x ltac:(cbn; lia) N).
    + destruct (H1 0 o eq_refl) as (c' & [= <-] & ->). cbn. f_equal. apply IH; [intros k x N; exact (H1 (S k) x N)|].
      intros k x Hk N. exact (H2 (S k) x ltac:(cbn; lia) N).
Qed.

(** * Reading the lists *)
Lemma map_positions i os : flat_map (fun k => match nth_error os k with Some o => [o] | None => [] end) (positions i os) = with_index i os.
Proof.
  induction os as [|o os IH] using rev_ind; [reflexivity|]. rewrite positions_snoc, flat_map_app. unfold with_index in *. rewrite filter_app. cbn [filter]. f_equal.
  - rewrite <- IH. apply flat_map_ext_in || idtac. clear. 
    assert (forall k, In k (positions i os) -> k < length os) as H by (intros k; apply positions_lt). induction (positions i os) as [|k ks IHk]; [reflexivity|]. cbn.
    rewrite IHk by (intros x Hx; apply H; now right). now rewrite nth_error_app1 by (apply H; now left).
  - destruct (N.to_nat (index (desc o)) =? i); [|reflexivity]. cbn. now rewrite nth_error_app2, Nat.sub_diag by lia.
Qed.
Lemma chain_places m os i : inv m os -> i < length (options m) -> places i os <> [] -> follow (next m) (size m) (O i) = places i os.
Proof.
  intros I Li Ne. assert (nth_error (places i os) 0 = Some (O i)) as N by (unfold places in *; destruct (positions i os); [now elim Ne|reflexivity]).
  rewrite (follow_nth m _ (i_linked _ _ I i Li) 0 (O i) (size m) N); [reflexivity|]. pose proof (places_size m i os I Li). lia.
Qed.
Lemma list_inv m os i : inv m os -> i < length (options m) -> list_at m i = with_index i os.
Proof.
  intros I Li. unfold list_at. destruct (positions i os) as [|k ks] eqn:P.
  - unfold option_at. rewrite (i_empty _ _ I i Li P). cbn. rewrite <- map_positions, P. reflexivity.
  - destruct (i_head _ _ I i k ks Li P) as (c & Fc & Cc). assert (Kk : k < length os) by (apply (positions_lt i); rewrite P; now left).
    destruct (nth_error os k) as [o|] eqn:N; [|apply nth_error_None in N; lia].
    assert (Ho : option_at m (O i) = [o]) by (unfold option_at; rewrite Fc, Cc; reflexivity). rewrite Ho.
    rewrite chain_places with (os := os) by (first [assumption|unfold places; rewrite P; discriminate]). rewrite <- map_positions. unfold places. rewrite P.
    cbn [flat_map]. rewrite Ho, N. cbn [app]. f_equal.
    assert (forall x, In x ks -> x < length os) as H by (intros x Hx; apply (positions_lt i); rewrite P; now right). clear -I H. induction ks as [|x ks IH]; [reflexivity|]. cbn.
    rewrite IH by (intros y Hy; apply H; now right). f_equal. destruct (nth_error os x) as [o|] eqn:N; [|apply nth_error_None in N; specialize (H x ltac:(now left)); lia].
    destruct (i_buf _ _ I x o N) as (c & Fc & Cc). unfold option_at. now rewrite Fc, Cc.
Qed.
Lemma chain_inv m os i : inv m os -> i < length (options m) -> chain m i = places i os.
Proof.
  intros I Li. unfold chain. destruct (positions i os) as [|k ks] eqn:P.
  - unfold option_at. rewrite (i_empty _ _ I i Li P). cbn. unfold places. now rewrite P.
  - destruct (i_head _ _ I i k ks Li P) as (c & Fc & Cc). assert (Kk : k < length os) by (apply (positions_lt i); rewrite P; now left).
    destruct (nth_error os k) as [o|] eqn:N; [|apply nth_error_None in N; lia].
    assert (Ho : option_at m (O i) = [o]) by (unfold option_at; rewrite Fc, Cc; reflexivity). rewrite Ho. apply chain_places; [exact I|exact Li|unfold places; rewrite P; discriminate].
Qed.
