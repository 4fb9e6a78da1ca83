From Verif Require Import Str Str_spec Str_proofs StrUtils_model StrUtils_spec.
From Coq Require Import ZifyN ZifyNat ZifyBool ZArith.

(** ** replace_first / replace_all *)

Lemma replace_first_true : forall st a b st',
  replace_first st a b = (true, st') ->
  exists u v, leftmost st a u v /\ st' = u ++ b ++ v.
Proof.
  intros st a b st' H. unfold replace_first in H.
  destruct (sfind a st) as [i|] eqn:F; [|discriminate].
  apply sfind_spec in F as (u & v & Hl & Hi). inversion H; subst.
  exists u, v. split; [exact Hl|]. destruct Hl as [-> _]. apply replace_at_app.
Qed.

Lemma replace_first_leftmost : forall st a b u v,
  leftmost st a u v -> replace_first st a b = (true, u ++ b ++ v).
Proof.
  intros st a b u v H. unfold replace_first.
  assert (sfind a st = Some (length u)) as ->.
  { apply sfind_spec. exists u, v. split; [exact H|reflexivity]. }
  destruct H as [-> _]. rewrite replace_at_app. reflexivity.
Qed.

Lemma replace_first_false : forall st a b st',
  replace_first st a b = (false, st') <-> st' = st /\ ~ contains st a.
Proof.
  intros st a b st'. unfold replace_first. destruct (sfind a st) as [i|] eqn:F.
  - split; [discriminate|]. intros [_ H]. exfalso. apply H. apply sfind_contains. eauto.
  - apply sfind_none in F. split.
    + intros H. inversion H; subst. auto.
    + intros [-> _]. reflexivity.
Qed.

Lemma leftmost_exists : forall t a, contains t a -> exists u v, leftmost t a u v.
Proof.
  intros t a H. apply sfind_contains in H as [i H]. apply sfind_spec in H as (u & v & H & _).
  exists u, v. exact H.
Qed.

Lemma leftmost_inj : forall t a u v u' v', leftmost t a u v -> leftmost t a u' v' -> u = u' /\ v = v'.
Proof.
  intros t a u v u' v' [E M] [E' M'].
  assert (length u = length u') as L.
  { specialize (M _ _ E'). specialize (M' _ _ E). lia. }
  rewrite E in E'. apply app_inj_tail_iff || idtac.
  assert (u = u').
  { apply (f_equal (firstn (length u))) in E'. rewrite firstn_len_app in E'.
    rewrite L in E' at 1. rewrite firstn_len_app in E'. exact E'. }
  subst u'. apply app_inv_head in E'. apply app_inv_head in E'. auto.
Qed.

Lemma loop_sound : forall fuel st a b n st' m,
  replace_all_loop fuel st a b n = Some (st', m) ->
  exists k, k < fuel /\ rewrites a b k st st' /\ ~ contains st' a /\
    ((n < 2 ^ 32)%N -> m = ((n + N.of_nat k) mod 2 ^ 32)%N).
Proof.
  induction fuel as [|fuel IH]; intros st a b n st' m H; [discriminate|].
  cbn [replace_all_loop] in H. destruct (replace_first st a b) as [[|] st1] eqn:R.
  - apply replace_first_true in R as (u & v & Hl & ->).
    apply IH in H as (k & Hk & Hr & Hc & Hm). exists (S k). repeat split; auto.
    + lia.
    + eapply rw_step; eauto.
    + intros Hn. rewrite Hm by (apply N.mod_upper_bound; discriminate).
      rewrite N.add_mod_idemp_l by discriminate. f_equal. lia.
  - apply replace_first_false in R as [-> Hc]. inversion H; subst. exists 0.
    repeat split; auto; [lia|constructor|]. intros Hn. rewrite N.add_0_r.
    symmetry. apply N.mod_small. exact Hn.
Qed.

Lemma loop_complete : forall a b k st st', rewrites a b k st st' -> ~ contains st' a ->
  forall fuel n, k < fuel -> exists m, replace_all_loop fuel st a b n = Some (st', m).
Proof.
  intros a b k st st' H. induction H as [t|k t t' u v Hl Hr IH]; intros Hc fuel n Hf;
    (destruct fuel as [|fuel]; [lia|]); cbn [replace_all_loop].
  - assert (replace_first t a b = (false, t)) as -> by (apply replace_first_false; auto). eauto.
  - rewrite (replace_first_leftmost _ _ b _ _ Hl). apply IH; auto. lia.
Qed.

Lemma loop_mono : forall fuel fuel' st a b n r,
  replace_all_loop fuel st a b n = Some r -> fuel <= fuel' ->
  replace_all_loop fuel' st a b n = Some r.
Proof.
  induction fuel as [|fuel IH]; intros fuel' st a b n r H Hf; [discriminate|].
  destruct fuel' as [|fuel']; [lia|]. cbn [replace_all_loop] in *.
  destruct (replace_first st a b) as [[|] st1]; [|exact H]. apply IH; [exact H|lia].
Qed.

(** a measure that every replacement decreases bounds the number of iterations *)
Lemma loop_terminates_measure : forall (mu : str -> nat) a b,
  (forall u v, mu (u ++ b ++ v) < mu (u ++ a ++ v)) ->
  forall fuel st n, mu st < fuel -> exists r, replace_all_loop fuel st a b n = Some r.
Proof.
  intros mu a b Hmu. induction fuel as [|fuel IH]; intros st n Hf; [lia|].
  cbn [replace_all_loop]. destruct (replace_first st a b) as [[|] st1] eqn:R.
  - apply replace_first_true in R as (u & v & [-> _] & ->). apply IH. specialize (Hmu u v). lia.
  - eauto.
Qed.

Lemma replace_all_sound_lemma : forall fuel st a b st' n,
  replace_all fuel st a b = Some (st', n) ->
  ~ contains st' a /\
  exists k, rewrites a b k st st' /\ n = (N.of_nat k mod 2 ^ 32)%N.
Proof.
  intros fuel st a b st' n H. apply loop_sound in H as (k & _ & Hr & Hc & Hm).
  split; [exact Hc|]. exists k. split; [exact Hr|]. apply Hm. reflexivity.
Qed.

Lemma replace_all_complete_lemma : forall st a b k st',
  rewrites a b k st st' -> ~ contains st' a ->
  forall fuel, k < fuel -> replace_all fuel st a b = Some (st', N.of_nat k mod 2 ^ 32)%N.
Proof.
  intros st a b k st' Hr Hc fuel Hf.
  destruct (loop_complete _ _ _ _ _ Hr Hc fuel 0%N Hf) as [m Hm].
  unfold replace_all. rewrite Hm. f_equal. f_equal.
  (* the number of steps is determined *)
  assert (forall k1 t t1, rewrites a b k1 t t1 -> ~ contains t1 a ->
          forall k2 t2, rewrites a b k2 t t2 -> ~ contains t2 a -> k1 = k2) as Det.
  { clear. intros k1 t t1 H1. induction H1 as [t|k1 t t1 u v Hl Hr IH]; intros C1 k2 t2 H2 C2.
    - inversion H2 as [|k2' ? ? u' v' [E _] Hr']; subst; auto. exfalso. apply C1. exists u', v'. reflexivity.
    - inversion H2 as [|k2' ? ? u' v' Hl' Hr']; subst.
      + exfalso. destruct Hl as [-> _]. apply C2. exists u, v. reflexivity.
      + destruct (leftmost_inj _ _ _ _ _ _ Hl Hl') as [<- <-]. f_equal. eapply IH; eauto. }
  apply loop_sound in Hm as (k' & _ & Hr' & Hc' & Hm').
  rewrite (Hm' eq_refl). f_equal. rewrite N.add_0_l. f_equal. eapply Det; eauto.
Qed.

Lemma replace_all_terminates_lemma : forall st a b,
  (exists c, count c b < count c a) \/ length b < length a ->
  exists st' n, forall fuel, length st < fuel -> replace_all fuel st a b = Some (st', n).
Proof.
  intros st a b H.
  assert (exists r, replace_all (S (length st)) st a b = Some r) as [[st' n] Hr].
  { destruct H as [[c Hc]|Hl].
    - apply (loop_terminates_measure (count c)).
      + intros u v. rewrite !count_app. lia.
      + unfold count. pose proof (count_occ_bound ascii_dec c st). lia.
    - apply (loop_terminates_measure (@length ascii)); [|lia].
      intros u v. rewrite !app_length. lia. }
  exists st', n. intros fuel Hf. eapply loop_mono; [exact Hr|lia].
Qed.

(** divergence *)
Lemma loop_diverges : forall (P : str -> Prop) a b,
  (forall t, P t -> exists u v, leftmost t a u v /\ P (u ++ b ++ v)) ->
  forall fuel st n, P st -> replace_all_loop fuel st a b n = None.
Proof.
  intros P a b HP. induction fuel as [|fuel IH]; intros st n H; [reflexivity|].
  cbn [replace_all_loop]. destruct (HP st H) as (u & v & Hl & Hn).
  rewrite (replace_first_leftmost _ _ b _ _ Hl). apply IH. exact Hn.
Qed.

Lemma replace_all_self_diverges : forall st a b,
  contains b a -> contains st a -> forall fuel, replace_all fuel st a b = None.
Proof.
  intros st a b Hb Hs fuel. apply (loop_diverges (fun t => contains t a)); [|exact Hs].
  intros t Ht. destruct (leftmost_exists _ _ Ht) as (u & v & Hl). exists u, v. split; [exact Hl|].
  apply contains_app_r, contains_app_l. exact Hb.
Qed.

Lemma replace_all_empty_diverges : forall st b fuel, replace_all fuel st [] b = None.
Proof. intros. apply replace_all_self_diverges; apply contains_nil. Qed.

(** the divergence is not only due to the replacement containing the pattern *)
Definition chA : ascii := "a"%char.
Definition chB : ascii := "b"%char.

Definition ping (t : str) : Prop :=
  (exists i j, t = repeat chB i ++ s "aab" ++ repeat chA j) \/
  (exists i j, t = repeat chB i ++ s "abbaa" ++ repeat chA j).

Lemma sfind_repeat_b : forall i t, sfind (s "ab") (repeat chB i ++ t) = option_map (Nat.add i) (sfind (s "ab") t).
Proof.
  induction i as [|i IH]; intros t.
  - change (repeat chB 0 ++ t) with t. destruct (sfind (s "ab") t); reflexivity.
  - cbn [repeat]. change ((chB :: repeat chB i) ++ t) with (chB :: (repeat chB i ++ t)).
    rewrite sfind_eq. cbn [s list_ascii_of_string prefixb].
    assert (Ascii.eqb "a" chB = false) as -> by reflexivity. cbn [andb].
    change ["a"%char; "b"%char] with (s "ab"). rewrite IH.
    destruct (sfind (s "ab") t); reflexivity.
Qed.

Lemma repeat_snoc : forall (A : Type) (x : A) n, repeat x n ++ [x] = repeat x (S n).
Proof. intros. rewrite <- repeat_cons. reflexivity. Qed.

Lemma ping_step : forall t, ping t -> exists u v, leftmost t (s "ab") u v /\ ping (u ++ s "bbaa" ++ v).
Proof.
  intros t [(i & j & ->)|(i & j & ->)].
  - exists (repeat chB i ++ [chA]), (repeat chA j). split.
    + assert (sfind (s "ab") (repeat chB i ++ s "aab" ++ repeat chA j) = Some (i + 1)) as F.
      { rewrite sfind_repeat_b. reflexivity. }
      apply sfind_spec in F as (u & v & Hl & Hlen). 
      assert (u = repeat chB i ++ [chA] /\ v = repeat chA j) as [-> ->]; [|exact Hl].
      destruct Hl as [E _].
      assert (u = repeat chB i ++ [chA]).
      { apply (f_equal (firstn (length u))) in E. rewrite firstn_len_app in E. rewrite <- E, Hlen.
        change (s "aab" ++ repeat chA j) with ([chA] ++ s "ab" ++ repeat chA j).
        rewrite app_assoc.
        replace (i + 1) with (length (repeat chB i ++ [chA])) by (rewrite app_length, repeat_length; reflexivity).
        apply firstn_len_app. }
      subst u. split; [reflexivity|].
      change (s "aab" ++ repeat chA j) with ([chA] ++ s "ab" ++ repeat chA j) in E.
      rewrite app_assoc in E. apply app_inv_head in E. apply app_inv_head in E. auto.
    + right. exists i, j. rewrite <- app_assoc. reflexivity.
  - exists (repeat chB i), (s "baa" ++ repeat chA j). split.
    + assert (sfind (s "ab") (repeat chB i ++ s "abbaa" ++ repeat chA j) = Some (i + 0)) as F.
      { rewrite sfind_repeat_b. reflexivity. }
      apply sfind_spec in F as (u & v & Hl & Hlen). 
      assert (u = repeat chB i /\ v = s "baa" ++ repeat chA j) as [-> ->]; [|exact Hl].
      destruct Hl as [E _].
      assert (u = repeat chB i).
      { apply (f_equal (firstn (length u))) in E. rewrite firstn_len_app in E. rewrite <- E, Hlen, Nat.add_0_r.
        rewrite <- (repeat_length chB i) at 1. apply firstn_len_app. }
      subst u. split; [reflexivity|].
      change (s "abbaa" ++ repeat chA j) with (s "ab" ++ s "baa" ++ repeat chA j) in E.
      apply app_inv_head in E. apply app_inv_head in E. auto.
    + left. exists (S (S i)), (S (S j)). rewrite <- (repeat_snoc _ chB (S i)), <- (repeat_snoc _ chB i).
      rewrite <- !app_assoc. reflexivity.
Qed.

Lemma replace_all_ping_diverges : forall fuel, replace_all fuel (s "aab") (s "ab") (s "bbaa") = None.
Proof.
  intros fuel. apply (loop_diverges ping); [exact ping_step|].
  left. exists 0, 0. reflexivity.
Qed.

(** ** single character replacement *)

Definition subst_char (c : ascii) (r : str) (t : str) : str :=
  flat_map (fun x => if Ascii.eqb x c then r else [x]) t.

Lemma subst_char_app : forall c r a b, subst_char c r (a ++ b) = subst_char c r a ++ subst_char c r b.
Proof. intros. unfold subst_char. apply flat_map_app. Qed.

Lemma subst_char_id : forall c r t, ~ In c t -> subst_char c r t = t.
Proof.
  intros c r t. induction t as [|x t IH]; intros H; [reflexivity|].
  cbn. destruct (Ascii.eqb_spec x c) as [->|N].
  - exfalso. apply H. left. reflexivity.
  - cbn. f_equal. apply IH. intros C. apply H. right. exact C.
Qed.

Lemma count_notin : forall c t, ~ In c t -> count c t = 0.
Proof. intros. apply count_zero_iff. assumption. Qed.

Lemma rewrites_char : forall c r, ~ In c r -> forall k t, count c t = k ->
  rewrites [c] r k t (subst_char c r t).
Proof.
  intros c r Hr. induction k as [|k IH]; intros t Hk.
  - apply count_zero_iff in Hk. rewrite subst_char_id by exact Hk. constructor.
  - assert (contains t [c]) as Hc.
    { apply contains_single. unfold count in Hk. apply (count_occ_In ascii_dec). lia. }
    destruct (leftmost_exists _ _ Hc) as (u & v & Hl). eapply rw_step; [exact Hl|].
    assert (~ In c u) as Hu.
    { intros C. apply in_split in C as (u1 & u2 & ->). destruct Hl as [E M].
      specialize (M u1 (u2 ++ [c] ++ v)). rewrite E in M. rewrite <- !app_assoc in M.
      specialize (M eq_refl). rewrite app_length in M. cbn in M. lia. }
    destruct Hl as [-> _].
    assert (subst_char c r (u ++ [c] ++ v) = subst_char c r (u ++ r ++ v)) as ->.
    { rewrite !subst_char_app. rewrite (subst_char_id c r r) by exact Hr.
      f_equal. f_equal. cbn. rewrite Ascii.eqb_refl, app_nil_r. reflexivity. }
    apply IH. rewrite !count_app in *. rewrite (count_notin c r Hr).
    assert (count c [c] = 1) as C1 by (unfold count; cbn; destruct (ascii_dec c c); congruence).
    lia.
Qed.

Lemma subst_char_free : forall c r t, ~ In c r -> ~ In c (subst_char c r t).
Proof.
  intros c r t Hr. unfold subst_char. rewrite in_flat_map. intros (x & Hx & Hin).
  destruct (Ascii.eqb_spec x c) as [->|N]; [contradiction|]. destruct Hin as [->|[]]. congruence.
Qed.

Lemma replace_all_char : forall c r t fuel, ~ In c r -> length t < fuel ->
  replace_all fuel t [c] r = Some (subst_char c r t, N.of_nat (count c t) mod 2 ^ 32)%N.
Proof.
  intros c r t fuel Hr Hf. apply replace_all_complete_lemma.
  - apply rewrites_char; auto.
  - intros C. apply contains_single in C. revert C. apply subst_char_free. exact Hr.
  - unfold count. pose proof (count_occ_bound ascii_dec c t). lia.
Qed.

(** ** strip_str *)

Definition memb (c : ascii) (l : str) : bool := existsb (Ascii.eqb c) l.

Lemma memb_In : forall c l, memb c l = true <-> In c l.
Proof.
  intros. unfold memb. rewrite existsb_exists. split.
  - intros (x & H & E). apply Ascii.eqb_eq in E. subst. exact H.
  - intros H. exists c. split; [exact H|apply Ascii.eqb_refl].
Qed.

Lemma subst_char_length_nil : forall c t, length (subst_char c [] t) <= length t.
Proof.
  intros c t. unfold subst_char. induction t as [|x t IH]; [cbn; lia|].
  cbn [flat_map]. rewrite app_length. destruct (Ascii.eqb x c); cbn [length]; lia.
Qed.

Lemma subst_char_nil_filter : forall c t, subst_char c [] t = filter (fun x => negb (Ascii.eqb x c)) t.
Proof.
  intros c t. unfold subst_char. induction t as [|x t IH]; [reflexivity|].
  cbn [flat_map filter]. destruct (Ascii.eqb x c); cbn [app negb]; congruence.
Qed.

Lemma filter_filter : forall (A : Type) (f g : A -> bool) l,
  filter f (filter g l) = filter (fun x => g x && f x) l.
Proof.
  intros. induction l as [|x l IH]; cbn; [reflexivity|]. destruct (g x) eqn:G; cbn; [|exact IH].
  destruct (f x); cbn; congruence.
Qed.

Lemma count_filter_split : forall c t (p : ascii -> bool),
  length (filter p t) = length (filter p (filter (fun x => negb (Ascii.eqb x c)) t))
                        + (if p c then count c t else 0).
Proof.
  intros c t p. induction t as [|x t IH]; [cbn; destruct (p c); reflexivity|].
  cbn [filter]. unfold count in *. cbn [count_occ].
  destruct (Ascii.eqb_spec x c) as [->|N].
  - cbn [negb]. destruct (ascii_dec c c) as [_|]; [|congruence]. destruct (p c) eqn:P; cbn [length]; lia.
  - cbn [negb filter]. destruct (ascii_dec x c) as [|_]; [congruence|].
    destruct (p x); cbn [length]; destruct (p c); lia.
Qed.

Lemma strip_chars_lemma : forall chars t fuel n, length t < fuel -> (n < 2 ^ 32)%N ->
  strip_loop fuel t [] (map (fun c => [c]) chars) n =
  Some (filter (fun x => negb (memb x chars)) t,
        (n + N.of_nat (length (filter (fun x => memb x chars) t))) mod 2 ^ 32)%N.
Proof.
  induction chars as [|c chars IH]; intros t fuel n Hf Hn.
  - cbn [map strip_loop].
    assert (filter (fun x => negb (memb x [])) t = t) as ->.
    { clear. induction t as [|y t IHt]; cbn; [reflexivity|]. f_equal. exact IHt. }
    assert (filter (fun x => memb x []) t = []) as ->.
    { clear. induction t as [|y t IHt]; cbn; [reflexivity|exact IHt]. }
    cbn [length]. rewrite N.add_0_r, N.mod_small by exact Hn. reflexivity.
  - cbn [map strip_loop]. rewrite replace_all_char by (auto; intros []).
    rewrite subst_char_nil_filter.
    assert (length (filter (fun x => negb (Ascii.eqb x c)) t) <= length t) as L.
    { rewrite <- subst_char_nil_filter. apply subst_char_length_nil. }
    rewrite IH; [|lia|apply N.mod_upper_bound; discriminate].
    f_equal. f_equal.
    + rewrite filter_filter. apply filter_ext. intros x. unfold memb. cbn [existsb].
      rewrite negb_orb. f_equal. 
    + rewrite (count_filter_split c t (fun x => memb x (c :: chars))).
      assert (memb c (c :: chars) = true) as -> by (unfold memb; cbn; rewrite Ascii.eqb_refl; reflexivity).
      rewrite (filter_ext_in (fun x => memb x (c :: chars)) (fun x => memb x chars)
                (filter (fun x => negb (Ascii.eqb x c)) t)).
      2:{ intros x Hx. apply filter_In in Hx as [_ Hx]. unfold memb. cbn [existsb].
          destruct (Ascii.eqb x c); [discriminate|reflexivity]. }
      rewrite Nat2N.inj_add.
      rewrite N.add_mod_idemp_l by discriminate.
      rewrite <- N.add_assoc, (N.add_comm (_ mod _)%N), N.add_assoc.
      rewrite N.add_mod_idemp_r by discriminate.
      f_equal. lia.
Qed.

Lemma strip_default_lemma : forall t fuel, length t < fuel ->
  strip_str_default fuel t =
  Some (filter (fun x => negb (Ascii.eqb x newline || Ascii.eqb x carriage_return)) t,
        N.of_nat (length (filter (fun x => Ascii.eqb x newline || Ascii.eqb x carriage_return) t)) mod 2 ^ 32)%N.
Proof.
  intros t fuel Hf. unfold strip_str_default, strip_str.
  change [[newline]; [carriage_return]] with (map (fun c : ascii => [c]) [newline; carriage_return]).
  rewrite strip_chars_lemma by (auto; reflexivity).
  assert (forall x, memb x [newline; carriage_return] = Ascii.eqb x newline || Ascii.eqb x carriage_return) as E.
  { intros x. unfold memb. cbn [existsb]. rewrite orb_false_r. reflexivity. }
  f_equal. f_equal.
  - apply filter_ext. intros x. rewrite E. reflexivity.
  - rewrite N.add_0_l. do 3 f_equal. apply filter_ext. exact E.
Qed.

(** deleting non-empty strings always terminates *)
Lemma rewrites_nil_length : forall a k t t', rewrites a [] k t t' -> length t' <= length t.
Proof.
  intros a k t t' H. induction H as [t|k t t' u v [-> _] Hr IH]; [lia|].
  rewrite !app_length in *. cbn in IH. lia.
Qed.

Lemma strip_terminates_lemma : forall undesired t fuel n,
  Forall (fun u => u <> []) undesired -> length t < fuel ->
  exists t' m, strip_loop fuel t [] undesired n = Some (t', m).
Proof.
  induction undesired as [|u undesired IH]; intros t fuel n HF Hf; [cbn; eauto|].
  inversion HF as [|? ? Hu HF']; subst. cbn [strip_loop].
  assert (length (@nil ascii) < length u) as Hl by (destruct u; [congruence|cbn; lia]).
  destruct (replace_all_terminates_lemma t u [] (or_intror Hl)) as (t' & m & Hr).
  rewrite (Hr fuel Hf).
  apply IH; auto.
  specialize (Hr (S (length t)) ltac:(lia)).
  apply replace_all_sound_lemma in Hr as [_ (k & Hk & _)].
  apply rewrites_nil_length in Hk. lia.
Qed.

(** ** split_string *)

Lemma skipn_app_len : forall (A : Type) (u p v : list A) n, n = length u + length p -> skipn n (u ++ p ++ v) = v.
Proof. intros A u p v n ->. rewrite app_assoc, <- app_length. apply skipn_len_app. Qed.

Lemma split_loop_spec : forall d, d <> [] -> forall fuel t start,
  start <= length t -> length t - start < fuel ->
  exists l, split_loop fuel t d start = Some l /\ splits d (skipn start t) l.
Proof.
  intros d Hd. induction fuel as [|fuel IH]; intros t start Hs Hf; [lia|].
  cbn [split_loop]. rewrite sfind_from_spec by exact Hs.
  destruct (sfind d (skipn start t)) as [i|] eqn:F; cbn [option_map].
  - assert (i + length d <= length t - start) as Hb.
    { apply sfind_bound in F. rewrite skipn_length in F. exact F. }
    assert (0 < length d) by (destruct d; [congruence|cbn; lia]).
    destruct (IH t (start + i + length d)) as (l & El & Hl); [lia|lia|].
    rewrite El. eexists. split; [reflexivity|].
    apply sfind_spec in F as (u & v & Hlm & Hi).
    assert (substr t start (start + i - start) = u) as ->.
    { unfold substr. replace (start + i - start) with i by lia. destruct Hlm as [E _].
      rewrite E, <- Hi. apply firstn_len_app. }
    apply sp_cut with (v := v); [exact Hlm|].
    assert (skipn (start + i + length d) t = v) as E; [|rewrite <- E; exact Hl].
    destruct Hlm as [E _]. replace (start + i + length d) with ((i + length d) + start) by lia.
    rewrite <- skipn_skipn', E. apply skipn_app_len. lia.
  - eexists. split; [reflexivity|]. constructor. apply sfind_none. exact F.
Qed.

Lemma splits_props : forall d t l, splits d t l ->
  l <> [] /\ join d l = t /\ Forall (fun p => ~ contains p d) l.
Proof.
  intros d t l H. induction H as [t Hc|t u v l Hl Hs (Hn & Hj & HF)].
  - repeat split; [discriminate|]. constructor; auto.
  - repeat split; [discriminate| |].
    + destruct l as [|x l]; [congruence|]. cbn [join] in *. rewrite Hj. symmetry. apply Hl.
    + constructor; [|exact HF]. intros (a & b & E). destruct Hl as [-> M]. subst u.
      destruct d as [|c d].
      * (* empty delimiter: v would contain it *)
        exfalso. destruct Hs as [v Hc|v u' v' l' Hl' _].
        -- apply Hc, contains_nil.
        -- inversion HF as [|? ? Hc _]. apply Hc, contains_nil.
      * specialize (M a (b ++ (c :: d) ++ v)). rewrite <- !app_assoc in M. specialize (M eq_refl).
        rewrite !app_length in M. cbn in M. lia.
Qed.

Lemma split_empty_diverges : forall fuel t start, start <= length t -> split_loop fuel t [] start = None.
Proof.
  induction fuel as [|fuel IH]; intros t start Hs; [reflexivity|].
  cbn [split_loop]. rewrite sfind_from_spec by exact Hs. rewrite sfind_nil. cbn [option_map length].
  rewrite !Nat.add_0_r. rewrite IH by exact Hs. reflexivity.
Qed.

Lemma split_string_lemma : forall t d fuel, d <> [] -> length t < fuel ->
  exists l, split_string fuel t d = Some l /\ splits d t l.
Proof.
  intros t d fuel Hd Hf. unfold split_string.
  destruct (split_loop_spec d Hd fuel t 0) as (l & E & H); [lia|lia|]. exists l. auto.
Qed.

(** several delimiters *)
Lemma interleave_app : forall p1 s1 p2 s2 q,
  length p1 = S (length s1) -> p2 <> [] ->
  interleave (p1 ++ p2) (s1 ++ q :: s2) = interleave p1 s1 ++ q ++ interleave p2 s2.
Proof.
  induction p1 as [|x p1 IH]; intros s1 p2 s2 q L H2; [cbn in L; lia|].
  destruct s1 as [|y s1].
  - destruct p1 as [|x' p1]; [|cbn in L; lia]. cbn. reflexivity.
  - cbn [app interleave]. cbn in L.
    rewrite IH by (auto; lia). rewrite <- !app_assoc. reflexivity.
Qed.

Lemma join_interleave : forall d l, l <> [] -> join d l = interleave l (repeat d (pred (length l))).
Proof.
  intros d l. induction l as [|x l IH]; intros H; [congruence|].
  destruct l as [|y l]; [reflexivity|].
  change (join d (x :: y :: l)) with (x ++ d ++ join d (y :: l)).
  rewrite IH by discriminate. reflexivity.
Qed.

Lemma split_strings_lemma : forall ds d l seps fuel,
  d <> [] -> length l = S (length seps) -> Forall (fun q => In q ds) seps ->
  Forall (fun p => forall d', In d' ds -> ~ contains p d') l ->
  length (interleave l seps) < fuel ->
  exists l' seps', split_strings fuel l d = Some l' /\ length l' = S (length seps') /\
    Forall (fun q => In q (ds ++ [d])) seps' /\ interleave l' seps' = interleave l seps /\
    Forall (fun p => forall d', In d' (ds ++ [d]) -> ~ contains p d') l'.
Proof.
  intros ds d l. induction l as [|x l IH]; intros seps fuel Hd L Hs Hp Hf; [discriminate|].
  cbn [split_strings]. inversion Hp as [|? ? Hx Hp']; subst.
  assert (length x < fuel) as Hxf.
  { destruct seps as [|q seps]; cbn [interleave] in Hf; [|rewrite app_length in Hf]; lia. }
  destruct (split_string_lemma x d fuel Hd Hxf) as (lx & Elx & Slx). rewrite Elx.
  destruct (splits_props _ _ _ Slx) as (Nx & Jx & Fx).
  assert (Forall (fun p => forall d', In d' (ds ++ [d]) -> ~ contains p d') lx) as Flx.
  { clear - Hx Fx Jx Slx.
    assert (Forall (fun p => contains x p) lx) as Fc.
    { clear - Slx. induction Slx as [t Hc|t u v l Hl Hs IH].
      - constructor; [|constructor]. exists [], []. rewrite app_nil_r. reflexivity.
      - destruct Hl as [-> _]. constructor.
        + apply contains_app_l. exists [], []. rewrite app_nil_r. reflexivity.
        + eapply Forall_impl; [|exact IH]. intros p Hp. apply contains_app_r, contains_app_r. exact Hp. }
    rewrite Forall_forall in *. intros p Hp d' Hd' C. apply in_app_iff in Hd' as [Hd'|[<-|[]]].
    - apply (Hx d' Hd'). eapply contains_trans; [apply Fc; exact Hp|exact C].
    - exact (Fx p Hp C). }
  assert (Forall (fun q => In q (ds ++ [d])) (repeat d (pred (length lx)))) as Frep.
  { apply Forall_forall. intros q Hq. apply repeat_spec in Hq. subst q. apply in_or_app. right. left. reflexivity. }
  destruct seps as [|q seps].
  - destruct l as [|y l]; [|cbn in L; lia]. cbn [split_strings]. rewrite app_nil_r.
    exists lx, (repeat d (pred (length lx))). repeat split; auto.
    + rewrite repeat_length. destruct lx; [congruence|reflexivity].
    + rewrite <- join_interleave by exact Nx. exact Jx.
  - cbn in L. apply Forall_cons_iff in Hs as [Hq Hs'].
    cbn [interleave] in Hf. rewrite !app_length in Hf.
    destruct (IH seps fuel Hd) as (l' & seps' & El' & Ll' & Fs' & Ei' & Fp'); auto; try lia.
    rewrite El'. exists (lx ++ l'), (repeat d (pred (length lx)) ++ q :: seps'). repeat split.
    + rewrite !app_length, repeat_length. cbn [length]. rewrite Ll'.
      assert (length lx <> 0) by (destruct lx; [congruence|discriminate]). unfold str in *. lia.
    + apply Forall_app. split; [exact Frep|]. constructor; [|exact Fs'].
      apply in_or_app. left. exact Hq.
    + rewrite interleave_app.
      * rewrite <- join_interleave by exact Nx. rewrite Jx, Ei'. reflexivity.
      * rewrite repeat_length. destruct lx; [congruence|reflexivity].
      * destruct l'; [discriminate|discriminate].
    + apply Forall_app. auto.
Qed.

Lemma split_set_loop_lemma : forall ds done l seps fuel,
  Forall (fun d => d <> []) ds -> length l = S (length seps) -> Forall (fun q => In q done) seps ->
  Forall (fun p => forall d', In d' done -> ~ contains p d') l ->
  length (interleave l seps) < fuel ->
  exists l', split_set_loop fuel l ds = Some l' /\ good_split (done ++ ds) (interleave l seps) l'.
Proof.
  induction ds as [|d ds IH]; intros done l seps fuel Hd L Hs Hp Hf.
  - cbn. rewrite app_nil_r. exists l. split; [reflexivity|]. split; [destruct l; discriminate|].
    split; [|exact Hp]. exists seps. auto.
  - inversion Hd as [|? ? Hd1 Hd2]; subst. cbn [split_set_loop].
    destruct (split_strings_lemma done d l seps fuel Hd1 L Hs Hp Hf) as (l' & seps' & E & L' & S' & I' & P').
    rewrite E. destruct (IH (done ++ [d]) l' seps' fuel Hd2 L' S' P') as (l'' & E'' & G); [rewrite I'; exact Hf|].
    exists l''. split; [exact E''|]. rewrite <- app_assoc, I' in G. exact G.
Qed.

Lemma split_set_lemma : forall t ds fuel, Forall (fun d => d <> []) ds -> length t < fuel ->
  exists l, split_string_set fuel t ds = Some l /\ good_split ds t l.
Proof.
  intros t ds fuel Hd Hf. unfold split_string_set.
  destruct (split_set_loop_lemma ds [] [t] [] fuel Hd) as (l & E & G); auto.
  exists l. split; [exact E|exact G].
Qed.

(** ** case conversion: sweep over the 256 bytes *)

Definition all_bytes : list ascii := map ascii_of_nat (seq 0 256).

Lemma all_bytes_complete : forall c, In c all_bytes.
Proof.
  intros c. unfold all_bytes. rewrite <- (ascii_nat_embedding c). apply in_map.
  apply in_seq. pose proof (nat_ascii_bounded c). lia.
Qed.

Lemma byte_sweep : forall (f : ascii -> bool), forallb f all_bytes = true -> forall c, f c = true.
Proof. intros f H c. rewrite forallb_forall in H. apply H, all_bytes_complete. Qed.

Lemma tolower_lemma : forall c,
  (exists u, is_lower_of (tolower c) u /\ u = c) \/ (tolower c = c /\ ~ In c upper_letters).
Proof.
  intros c.
  pose (f := fun c => existsb (fun i => match nth_error lower_letters i, nth_error upper_letters i with
                   | Some l, Some u => Ascii.eqb l (tolower c) && Ascii.eqb u c | _, _ => false end) (seq 0 26)
                   || (Ascii.eqb (tolower c) c && negb (memb c upper_letters))).
  assert (f c = true) as H by (apply byte_sweep; vm_compute; reflexivity).
  unfold f in H. apply orb_true_iff in H as [H|H].
  - left. apply existsb_exists in H as (i & _ & H).
    destruct (nth_error lower_letters i) as [l|] eqn:E1; [|discriminate].
    destruct (nth_error upper_letters i) as [u|] eqn:E2; [|discriminate].
    apply andb_true_iff in H as [H1 H2]. apply Ascii.eqb_eq in H1, H2. subst l u.
    exists c. split; [|reflexivity]. exists i. auto.
  - right. apply andb_true_iff in H as [H1 H2]. apply Ascii.eqb_eq in H1. split; [exact H1|].
    intros C. apply memb_In in C. rewrite C in H2. discriminate.
Qed.

Lemma toupper_lemma : forall c,
  (exists l, is_lower_of l (toupper c) /\ l = c) \/ (toupper c = c /\ ~ In c lower_letters).
Proof.
  intros c.
  pose (f := fun c => existsb (fun i => match nth_error lower_letters i, nth_error upper_letters i with
                   | Some l, Some u => Ascii.eqb l c && Ascii.eqb u (toupper c) | _, _ => false end) (seq 0 26)
                   || (Ascii.eqb (toupper c) c && negb (memb c lower_letters))).
  assert (f c = true) as H by (apply byte_sweep; vm_compute; reflexivity).
  unfold f in H. apply orb_true_iff in H as [H|H].
  - left. apply existsb_exists in H as (i & _ & H).
    destruct (nth_error lower_letters i) as [l|] eqn:E1; [|discriminate].
    destruct (nth_error upper_letters i) as [u|] eqn:E2; [|discriminate].
    apply andb_true_iff in H as [H1 H2]. apply Ascii.eqb_eq in H1, H2. subst l u.
    exists c. split; [|reflexivity]. exists i. auto.
  - right. apply andb_true_iff in H as [H1 H2]. apply Ascii.eqb_eq in H1. split; [exact H1|].
    intros C. apply memb_In in C. rewrite C in H2. discriminate.
Qed.

Lemma map_nth_error_iff : forall (A B : Type) (f : A -> B) l i,
  nth_error (map f l) i = option_map f (nth_error l i).
Proof.
  intros A B f l. induction l as [|x l IH]; intros [|i]; cbn; auto.
Qed.

Lemma case_laws_lemma : forall st,
  to_lowercase (to_lowercase st) = to_lowercase st /\
  to_uppercase (to_uppercase st) = to_uppercase st /\
  to_lowercase (to_uppercase st) = to_lowercase st /\
  to_uppercase (to_lowercase st) = to_uppercase st /\
  length (to_lowercase st) = length st /\ length (to_uppercase st) = length st.
Proof.
  intros st. unfold to_lowercase, to_uppercase. rewrite !map_map, !map_length.
  assert (forall (f g : ascii -> ascii), forallb (fun c => Ascii.eqb (f c) (g c)) all_bytes = true -> forall c, f c = g c) as Sw.
  { intros f g H c. apply Ascii.eqb_eq. apply (byte_sweep _ H c). }
  repeat split; apply map_ext; apply Sw; vm_compute; reflexivity.
Qed.

Lemma lower_char_lemma : forall st i c, nth_error st i = Some c ->
  exists d, nth_error (to_lowercase st) i = Some d /\
    (is_lower_of d c \/ (d = c /\ ~ In c upper_letters)).
Proof.
  intros st i c H. unfold to_lowercase. rewrite map_nth_error_iff, H. cbn. eexists. split; [reflexivity|].
  destruct (tolower_lemma c) as [(u & Hu & ->)|H']; auto.
Qed.

Lemma upper_char_lemma : forall st i c, nth_error st i = Some c ->
  exists d, nth_error (to_uppercase st) i = Some d /\
    (is_lower_of c d \/ (d = c /\ ~ In c lower_letters)).
Proof.
  intros st i c H. unfold to_uppercase. rewrite map_nth_error_iff, H. cbn. eexists. split; [reflexivity|].
  destruct (toupper_lemma c) as [(u & Hu & ->)|H']; auto.
Qed.

Lemma replace_all_returns_refuted_lemma : exists st a b,
  a <> [] /\ ~ contains b a /\ forall fuel, replace_all fuel st a b = None.
Proof.
  exists (s "aab"), (s "ab"), (s "bbaa"). split; [discriminate|]. split.
  - apply sfind_none. reflexivity.
  - exact replace_all_ping_diverges.
Qed.

Lemma strip_str_chars_lemma chars t fuel : length t < fuel ->
  strip_str fuel t [] (map (fun c => [c]) chars) =
  Some (filter (fun x => negb (memb x chars)) t, N.of_nat (length (filter (fun x => memb x chars) t)) mod 2 ^ 32)%N.
Proof. intro H. unfold strip_str. rewrite (strip_chars_lemma chars t fuel 0%N H); [rewrite N.add_0_l; reflexivity|reflexivity]. Qed.
Lemma strip_str_returns_lemma undesired t fuel : Forall (fun u => u <> []) undesired -> length t < fuel -> exists t' m, strip_str fuel t [] undesired = Some (t', m).
Proof. intros F H. apply strip_terminates_lemma; assumption. Qed.
Lemma strip_removes_all_refuted_lemma : exists t undesired fuel t' n u,
  Forall (fun u => u <> []) undesired /\ strip_str fuel t [] undesired = Some (t', n) /\
  In u undesired /\ contains t' u.
Proof.
  exists (s "acb"), [s "ab"; s "c"], 10, (s "ab"), 1%N, (s "ab"). repeat split.
  - repeat constructor; discriminate.
  - left. reflexivity.
  - apply sfind_contains. exists 0. reflexivity.
Qed.
