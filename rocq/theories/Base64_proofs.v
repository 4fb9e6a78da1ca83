From Verif Require Import Str Base64_model Base64_spec StrUtils_proofs.
From Coq Require Import ZArith Lia ZifyNat ZifyBool.
Local Open Scope Z_scope.

(** ** the low bits of an integer, most significant first *)
Fixpoint lowbits (k : nat) (v : Z) : list bool :=
  match k with
  | O => []
  | S k' => Z.testbit v (Z.of_nat k') :: lowbits k' v
  end.

Lemma lowbits_length : forall k v, length (lowbits k v) = k.
Proof. induction k as [|k IH]; intros v; cbn; [reflexivity|]. rewrite IH. reflexivity. Qed.

Lemma lowbits_ext : forall k v w, (forall i, 0 <= i < Z.of_nat k -> Z.testbit v i = Z.testbit w i) ->
  lowbits k v = lowbits k w.
Proof.
  induction k as [|k IH]; intros v w H; [reflexivity|]. cbn. f_equal; [apply H; lia|].
  apply IH. intros i Hi. apply H. lia.
Qed.

Lemma testbit_wrap32 : forall z i, 0 <= i < 32 -> Z.testbit (wrap32 z) i = Z.testbit z i.
Proof.
  intros z i Hi.
  rewrite <- (Z.mod_pow2_bits_low (wrap32 z) 32) by lia.
  rewrite <- (Z.mod_pow2_bits_low z 32 i) by lia. f_equal.
  unfold wrap32. rewrite Zminus_mod_idemp_l. f_equal. lia.
Qed.

Lemma lowbits_wrap32 : forall k z, (k <= 32)%nat -> lowbits k (wrap32 z) = lowbits k z.
Proof. intros k z Hk. apply lowbits_ext. intros i Hi. apply testbit_wrap32. lia. Qed.

(** [v << m] plus something smaller than 2^m *)
Lemma lowbits_shift_add : forall k m v c, 0 <= c < 2 ^ Z.of_nat m ->
  lowbits (k + m) (Z.shiftl v (Z.of_nat m) + c) = lowbits k v ++ lowbits m c.
Proof.
  intros k m v c Hc. induction k as [|k IH].
  - cbn [Nat.add lowbits app]. apply lowbits_ext. intros i Hi.
    rewrite <- (Z.mod_pow2_bits_low _ (Z.of_nat m)) by lia.
    rewrite Z.shiftl_mul_pow2 by lia. rewrite Z.add_comm, Z.mod_add by lia.
    rewrite Z.mod_small by exact Hc. reflexivity.
  - cbn [Nat.add lowbits app]. f_equal; [|exact IH].
    replace (Z.of_nat (k + m)) with (Z.of_nat k + Z.of_nat m) by lia.
    rewrite <- Z.shiftr_spec by lia. f_equal.
    rewrite Z.shiftl_mul_pow2, Z.shiftr_div_pow2 by lia.
    rewrite Z.div_add_l by lia. rewrite Z.div_small by exact Hc. lia.
Qed.

Lemma lowbits_split : forall n m v,
  lowbits (n + m) v = lowbits n (Z.shiftr v (Z.of_nat m)) ++ lowbits m v.
Proof.
  induction n as [|n IH]; intros m v; [reflexivity|].
  cbn [Nat.add lowbits app]. f_equal; [|apply IH].
  rewrite Z.shiftr_spec by lia. f_equal. lia.
Qed.

Lemma lowbits_land : forall k v, lowbits k (Z.land v (Z.ones (Z.of_nat k))) = lowbits k v.
Proof.
  intros k v. apply lowbits_ext. intros i Hi. rewrite Z.land_spec.
  rewrite Z.ones_spec_low by lia. apply andb_true_r.
Qed.

Lemma lowbits_land63 : forall v, lowbits 6 (Z.land v 63) = lowbits 6 v.
Proof. intros v. exact (lowbits_land 6 v). Qed.

Lemma lowbits_land255 : forall v, lowbits 8 (Z.land v 255) = lowbits 8 v.
Proof. intros v. exact (lowbits_land 8 v). Qed.

Lemma land63_range : forall v, 0 <= Z.land v 63 < 64.
Proof. intros v. change 63 with (Z.ones 6). rewrite Z.land_ones by lia. apply Z.mod_pos_bound. lia. Qed.
Lemma land255_range : forall v, 0 <= Z.land v 255 < 256.
Proof. intros v. change 255 with (Z.ones 8). rewrite Z.land_ones by lia. apply Z.mod_pos_bound. lia. Qed.

(** bytes *)
Lemma byte_range : forall c, 0 <= byte c < 256.
Proof. intros c. unfold byte. pose proof (N_ascii_bounded c). lia. Qed.

Lemma list_bool_eqb_true : forall a b : list bool,
  (if list_eq_dec bool_dec a b then true else false) = true -> a = b.
Proof. intros a b. destruct (list_eq_dec bool_dec a b); [auto|discriminate]. Qed.

Lemma byte_bits_lowbits : forall c, lowbits 8 (byte c) = byte_bits c.
Proof.
  intros c. apply list_bool_eqb_true.
  apply (byte_sweep (fun c => if list_eq_dec bool_dec (lowbits 8 (byte c)) (byte_bits c) then true else false)).
  vm_compute. reflexivity.
Qed.

Lemma char_of_bits : forall z, 0 <= z < 256 -> byte_bits (char_of z) = lowbits 8 z.
Proof.
  intros z Hz. rewrite <- byte_bits_lowbits. f_equal. unfold byte, char_of.
  rewrite N_ascii_embedding by lia. lia.
Qed.

(** sweep over 0..63 *)
Lemma sweep64 : forall (f : Z -> bool), forallb (fun i => f (Z.of_nat i)) (seq 0 64) = true ->
  forall z, 0 <= z < 64 -> f z = true.
Proof.
  intros f H z Hz. rewrite forallb_forall in H. specialize (H (Z.to_nat z)).
  rewrite Z2Nat.id in H by lia. apply H. apply in_seq. lia.
Qed.

Lemma symbol_lowbits : forall z, 0 <= z < 64 -> symbol (lowbits 6 z) = alphabet_at z.
Proof.
  intros z Hz. apply Ascii.eqb_eq.
  apply (sweep64 (fun z => Ascii.eqb (symbol (lowbits 6 z)) (alphabet_at z))); [vm_compute; reflexivity|exact Hz].
Qed.

(** ** encoder *)

Lemma encode_emit_lemma : forall fuel out val valb m,
  valb = Z.of_nat m - 6 -> -6 <= valb -> (m <= 18)%nat -> valb < 6 * Z.of_nat fuel ->
  exists groups k,
    encode_emit fuel out val valb = (out ++ map symbol groups, Z.of_nat k - 6) /\
    (k < 6)%nat /\ (k mod 6 = m mod 6)%nat /\
    Forall (fun g => length g = 6%nat) groups /\
    lowbits m val = concat groups ++ lowbits k val.
Proof.
  induction fuel as [|fuel IH]; intros out val valb m Hv Hl Hm Hf.
  { exists [], m. cbn [encode_emit]. rewrite app_nil_r. repeat split; auto; try lia. f_equal. exact Hv. }
  cbn [encode_emit]. destruct (0 <=? valb) eqn:E.
  - destruct (IH (out ++ [alphabet_at (Z.land (Z.shiftr val valb) 63)]) val (valb - 6) (m - 6)%nat)
      as (gs & k & Eq & Hk & Hmod & HF & Hb); try lia.
    exists (lowbits 6 (Z.shiftr val valb) :: gs), k. repeat split; auto.
    + rewrite Eq. cbn [map]. rewrite <- app_assoc. f_equal. f_equal. cbn [app]. f_equal.
      rewrite <- lowbits_land63. symmetry. apply symbol_lowbits, land63_range.
    + rewrite Hmod. replace (m mod 6)%nat with ((m - 6 + 1 * 6) mod 6)%nat by (f_equal; lia).
      rewrite Nat.mod_add by lia. reflexivity.
    + cbn [concat]. rewrite <- app_assoc, <- Hb.
      replace m with (6 + (m - 6))%nat at 1 by lia. rewrite lowbits_split.
      f_equal. f_equal. f_equal. lia.
  - exists [], m. rewrite app_nil_r. repeat split; auto; try lia. f_equal. exact Hv.
Qed.

Lemma bits_of_cons : forall c t, bits_of (c :: t) = byte_bits c ++ bits_of t.
Proof. reflexivity. Qed.

Lemma encode_loop_lemma : forall input out val k, (k <= 4)%nat -> (k mod 2 = 0)%nat ->
  exists groups val' k',
    encode_loop input out val (Z.of_nat k - 6) = (out ++ map symbol groups, val', Z.of_nat k' - 6) /\
    (k' <= 4)%nat /\ (k' mod 2 = 0)%nat /\
    Forall (fun g => length g = 6%nat) groups /\
    lowbits k val ++ bits_of input = concat groups ++ lowbits k' val'.
Proof.
  induction input as [|c input IH]; intros out val k Hk Hp.
  - exists [], val, k. cbn [encode_loop map concat bits_of flat_map app].
    rewrite !app_nil_r. repeat split; auto.
  - cbn [encode_loop]. set (val1 := wrap32 (wrap32 (Z.shiftl val 8) + byte c)).
    replace (Z.of_nat k - 6 + 8) with (Z.of_nat (k + 8) - 6) by lia.
    destruct (encode_emit_lemma (S (Z.to_nat (Z.of_nat (k + 8) - 6))) out val1
                (Z.of_nat (k + 8) - 6) (k + 8)) as (g1 & k1 & E1 & Hk1 & Hm1 & F1 & B1); try lia.
    rewrite E1.
    assert (k1 <= 4 /\ k1 mod 2 = 0)%nat as [Hk1' Hp1].
    { assert (k = 0 \/ k = 2 \/ k = 4)%nat as [->|[->| ->]].
      { destruct k as [|[|[|[|[|k]]]]]; cbn in Hp; try discriminate; auto; lia. }
      all: destruct k1 as [|[|[|[|[|[|k1]]]]]]; cbn in Hm1; try discriminate; try lia; split; try lia; reflexivity. }
    destruct (IH (out ++ map symbol g1) val1 k1 Hk1' Hp1) as (g2 & val2 & k2 & E2 & Hk2 & Hp2 & F2 & B2).
    exists (g1 ++ g2), val2, k2. rewrite E2. repeat split; auto.
    + rewrite map_app, app_assoc. reflexivity.
    + apply Forall_app. auto.
    + rewrite concat_app, <- app_assoc, <- B2, app_assoc, <- B1, bits_of_cons, app_assoc. f_equal.
      unfold val1. rewrite lowbits_wrap32 by lia.
      assert (lowbits (k + 8) (wrap32 (Z.shiftl val 8) + byte c) = lowbits (k + 8) (Z.shiftl val 8 + byte c)) as ->.
      { rewrite <- (lowbits_wrap32 _ (_ + byte c)) by lia.
        rewrite <- (lowbits_wrap32 _ (Z.shiftl val 8 + byte c)) by lia. f_equal.
        unfold wrap32. f_equal.
        replace ((Z.shiftl val 8 + 2 ^ 31) mod 2 ^ 32 - 2 ^ 31 + byte c + 2 ^ 31)
          with ((Z.shiftl val 8 + 2 ^ 31) mod 2 ^ 32 + byte c) by lia.
        rewrite Zplus_mod_idemp_l. f_equal. lia. }
      pose proof (lowbits_shift_add k 8 val (byte c)) as HS.
      change (Z.of_nat 8) with 8 in HS. rewrite HS by (pose proof (byte_range c); cbn; lia).
      rewrite byte_bits_lowbits. reflexivity.
Qed.

Lemma sextets_groups : forall groups rest, Forall (fun g => length g = 6%nat) groups ->
  sextets (concat groups ++ rest) = groups ++ sextets rest.
Proof.
  induction groups as [|g groups IH]; intros rest HF; [reflexivity|].
  inversion HF as [|? ? Hg HF']; subst. cbn [concat].
  destruct g as [|b5 [|b4 [|b3 [|b2 [|b1 [|b0 [|]]]]]]]; try discriminate.
  cbn [app sextets]. rewrite IH by exact HF'. reflexivity.
Qed.

Lemma sextets_short : forall l, (0 < length l < 6)%nat ->
  sextets l = [l ++ repeat false (6 - length l)].
Proof.
  intros l H. destruct l as [|b5 [|b4 [|b3 [|b2 [|b1 [|b0 l]]]]]]; cbn in H; try lia; reflexivity.
Qed.

Lemma encode_pad_lemma : forall out, encode_pad 4 out = out ++ repeat "="%char (padding (length out)).
Proof.
  intros out. unfold padding.
  assert (length out mod 4 < 4)%nat as Hm by (apply Nat.mod_upper_bound; lia).
  assert (forall m l, (length l mod 4 = m)%nat -> (m < 4)%nat ->
    encode_pad 4 l = l ++ repeat "="%char ((4 - m) mod 4)%nat) as H.
  { intros m l Hl Hlt.
    assert (forall f l, (length l mod 4 = 0)%nat -> encode_pad f l = l) as H0.
    { intros f l0 Hl0. destruct f; [reflexivity|]. cbn [encode_pad]. rewrite Hl0. reflexivity. }
    assert (forall f l k, (length l mod 4 = S k)%nat -> (S k < 4)%nat ->
              encode_pad (S f) l = encode_pad f (l ++ ["="%char]) /\ (length (l ++ ["="%char]) mod 4 = (S (S k)) mod 4)%nat) as HS.
    { intros f l0 k Hl0 Hk. split.
      - cbn [encode_pad]. rewrite Hl0. reflexivity.
      - rewrite app_length. cbn [length]. rewrite Nat.add_mod by lia. rewrite Hl0.
        rewrite (Nat.mod_small 1) by lia. f_equal. lia. }
    destruct m as [|[|[|[|m]]]]; [..|lia].
    - rewrite H0 by exact Hl. cbn. rewrite app_nil_r. reflexivity.
    - destruct (HS 3%nat l 0%nat Hl ltac:(lia)) as [-> H1]. destruct (HS 2%nat _ 1%nat H1 ltac:(lia)) as [-> H2].
      destruct (HS 1%nat _ 2%nat H2 ltac:(lia)) as [-> H3]. rewrite H0 by exact H3.
      rewrite <- !app_assoc. reflexivity.
    - destruct (HS 3%nat l 1%nat Hl ltac:(lia)) as [-> H1]. destruct (HS 2%nat _ 2%nat H1 ltac:(lia)) as [-> H2].
      rewrite H0 by exact H2. rewrite <- !app_assoc. reflexivity.
    - destruct (HS 3%nat l 2%nat Hl ltac:(lia)) as [-> H1]. rewrite H0 by exact H1. reflexivity. }
  apply H; auto.
Qed.

(** the last, incomplete group *)
Lemma final_group : forall val k, (0 < k <= 4)%nat ->
  alphabet_at (Z.land (Z.shiftr (wrap32 (Z.shiftl val 8)) (Z.of_nat k - 6 + 8)) 63)
  = symbol (lowbits k val ++ repeat false (6 - k)).
Proof.
  intros val k Hk. rewrite <- symbol_lowbits by apply land63_range. f_equal.
  rewrite lowbits_land63.
  assert (lowbits 6 (Z.shiftr (wrap32 (Z.shiftl val 8)) (Z.of_nat k - 6 + 8))
          = lowbits 6 (Z.shiftr (Z.shiftl val 8) (Z.of_nat (k + 2)))) as ->.
  { apply lowbits_ext. intros i Hi. rewrite !Z.shiftr_spec by lia.
    replace (i + (Z.of_nat k - 6 + 8)) with (i + Z.of_nat (k + 2)) by lia.
    apply testbit_wrap32. lia. }
  assert (lowbits (6 + (k + 2)) (Z.shiftl val 8) = lowbits k val ++ lowbits 8 0) as E.
  { replace (6 + (k + 2))%nat with (k + 8)%nat by lia.
    rewrite <- (Z.add_0_r (Z.shiftl val 8)). apply (lowbits_shift_add k 8 val 0). cbn. lia. }
  rewrite lowbits_split in E.
  apply (f_equal (firstn 6)) in E.
  rewrite firstn_app, lowbits_length in E. rewrite Nat.sub_diag, app_nil_r in E.
  rewrite firstn_all2 in E by (rewrite lowbits_length; lia). rewrite E.
  rewrite firstn_app, lowbits_length. rewrite firstn_all2 by (rewrite lowbits_length; lia).
  f_equal. destruct k as [|[|[|[|[|k]]]]]; try lia; reflexivity.
Qed.

Lemma base64_encode_rfc : forall t, base64_encode t = rfc4648_encode t.
Proof.
  intros t. unfold base64_encode, rfc4648_encode.
  destruct (encode_loop_lemma t [] 0 0) as (gs & val & k & E & Hk & Hp & HF & HB); [lia|reflexivity|].
  change (Z.of_nat 0 - 6) with (-6) in E. rewrite E. rewrite encode_pad_lemma.
  cbn [lowbits app] in HB. rewrite HB. rewrite sextets_groups by exact HF.
  cbn [app]. destruct k as [|k].
  - change (-6 <? Z.of_nat 0 - 6) with false. cbv iota. cbn [lowbits sextets].
    rewrite app_nil_r. reflexivity.
  - assert (-6 <? Z.of_nat (S k) - 6 = true) as -> by lia. cbv iota.
    rewrite final_group by lia.
    rewrite sextets_short by (rewrite lowbits_length; lia). rewrite lowbits_length.
    rewrite map_app. cbn [map]. reflexivity.
Qed.

(** ** decoder *)

Lemma decode_table_invalid : forall c, decode_table c = -1 <-> ~ In c rfc_alphabet.
Proof.
  intros c.
  pose (f := fun c => Bool.eqb (decode_table c =? -1) (negb (memb c rfc_alphabet))).
  assert (f c = true) as H by (apply byte_sweep; vm_compute; reflexivity).
  unfold f in H. apply Bool.eqb_prop in H. rewrite <- memb_In.
  destruct (memb c rfc_alphabet); cbn [negb] in H.
  - split; [lia|]. intros C. exfalso. apply C. reflexivity.
  - split; [discriminate|]. intros _. lia.
Qed.

Lemma decode_table_denotes : forall c, In c rfc_alphabet ->
  0 <= decode_table c < 64 /\ denotes c (lowbits 6 (decode_table c)).
Proof.
  intros c H. apply memb_In in H.
  pose (f := fun c => negb (memb c rfc_alphabet) ||
     ((0 <=? decode_table c) && (decode_table c <? 64) && Ascii.eqb (symbol (lowbits 6 (decode_table c))) c)).
  assert (f c = true) as Hf by (apply byte_sweep; vm_compute; reflexivity).
  unfold f in Hf. rewrite H in Hf. cbn [negb orb] in Hf.
  apply andb_true_iff in Hf as [H1 H2]. apply Ascii.eqb_eq in H2.
  split; [lia|]. split; [apply lowbits_length|exact H2].
Qed.

Lemma octets_app_bytes : forall t rest, octets (bits_of t ++ rest) = t ++ octets rest.
Proof.
  induction t as [|c t IH]; intros rest; [reflexivity|].
  rewrite bits_of_cons. destruct c as [b0 b1 b2 b3 b4 b5 b6 b7].
  cbn [byte_bits app octets]. rewrite IH. reflexivity.
Qed.

Lemma octets_short : forall l, (length l < 8)%nat -> octets l = [].
Proof.
  intros l H. destruct l as [|? [|? [|? [|? [|? [|? [|? [|? l]]]]]]]]; try reflexivity. cbn in H. lia.
Qed.

Lemma decode_loop_lemma : forall syms groups rest out val k,
  (k <= 6)%nat -> (k mod 2 = 0)%nat ->
  Forall2 denotes syms groups ->
  (forall c r, rest = c :: r -> ~ In c rfc_alphabet) ->
  exists t tail, decode_loop (syms ++ rest) out val (Z.of_nat k - 8) = out ++ t /\
    (length tail < 8)%nat /\ lowbits k val ++ concat groups = bits_of t ++ tail.
Proof.
  intros syms groups rest out val k Hk Hp H2 Hrest. revert out val k Hk Hp.
  induction H2 as [|c g syms groups Hd H2 IH]; intros out val k Hk Hp.
  - cbn [app]. exists [], (lowbits k val). rewrite !app_nil_r. repeat split.
    + destruct rest as [|c r]; [reflexivity|]. cbn [decode_loop].
      assert (decode_table c = -1) as -> by (apply decode_table_invalid, (Hrest c r eq_refl)). reflexivity.
    + rewrite lowbits_length. lia.
  - cbn [app decode_loop].
    assert (In c rfc_alphabet) as Hin.
    { destruct Hd as [L <-]. unfold symbol. apply nth_In.
      destruct g as [|[] [|[] [|[] [|[] [|[] [|[] [|]]]]]]]; try discriminate; cbn; lia. }
    destruct (decode_table_denotes c Hin) as [Hr Hd'].
    assert (decode_table c =? -1 = false) as -> by lia.
    assert (lowbits 6 (decode_table c) = g) as Hg.
    { (* symbol is injective on groups of six bits *)
      destruct Hd as [L1 S1], Hd' as [L2 S2]. rewrite <- S2 in S1.
      revert L1 S1. generalize (lowbits_length 6 (decode_table c)).
      generalize (lowbits 6 (decode_table c)) as h. intros h Lh Lg Heq. clear - Lh Lg Heq.
      destruct g as [|[] [|[] [|[] [|[] [|[] [|[] [|]]]]]]]; try discriminate Lg;
      destruct h as [|[] [|[] [|[] [|[] [|[] [|[] [|]]]]]]]; try discriminate Lh;
      solve [reflexivity | vm_compute in Heq; discriminate Heq]. }
    set (val1 := wrap32 (wrap32 (Z.shiftl val 6) + decode_table c)).
    assert (lowbits (k + 6) val1 = lowbits k val ++ g) as Hb.
    { unfold val1. rewrite lowbits_wrap32 by lia.
      assert (lowbits (k + 6) (wrap32 (Z.shiftl val 6) + decode_table c) = lowbits (k + 6) (Z.shiftl val 6 + decode_table c)) as ->.
      { rewrite <- (lowbits_wrap32 _ (_ + decode_table c)) by lia.
        rewrite <- (lowbits_wrap32 _ (Z.shiftl val 6 + decode_table c)) by lia. f_equal.
        unfold wrap32. f_equal.
        replace ((Z.shiftl val 6 + 2 ^ 31) mod 2 ^ 32 - 2 ^ 31 + decode_table c + 2 ^ 31)
          with ((Z.shiftl val 6 + 2 ^ 31) mod 2 ^ 32 + decode_table c) by lia.
        rewrite Zplus_mod_idemp_l. f_equal. lia. }
      pose proof (lowbits_shift_add k 6 val (decode_table c)) as HS.
      change (Z.of_nat 6) with 6 in HS. change (2 ^ 6) with 64 in HS. rewrite HS by exact Hr. rewrite Hg. reflexivity. }
    destruct (0 <=? Z.of_nat k - 8 + 6) eqn:E.
    + replace (Z.of_nat k - 8 + 6 - 8) with (Z.of_nat (k - 2) - 8) by lia.
      destruct (IH (out ++ [char_of (Z.land (Z.shiftr val1 (Z.of_nat k - 8 + 6)) 255)]) val1 (k - 2)%nat)
        as (t & tail & Et & Lt & Bt); [lia| |].
      { replace k with (k - 2 + 1 * 2)%nat in Hp by lia. rewrite Nat.mod_add in Hp by lia. exact Hp. }
      exists (char_of (Z.land (Z.shiftr val1 (Z.of_nat k - 8 + 6)) 255) :: t), tail. repeat split; auto.
      * rewrite Et, <- app_assoc. reflexivity.
      * rewrite bits_of_cons, <- app_assoc, <- Bt, app_assoc. cbn [concat]. rewrite app_assoc, <- Hb.
        f_equal. rewrite char_of_bits by apply land255_range. rewrite lowbits_land255.
        replace (k + 6)%nat with (8 + (k - 2))%nat by lia. rewrite lowbits_split. f_equal. f_equal. f_equal. lia.
    + assert (k = 0)%nat as Hk0 by (destruct k as [|[|k]]; [reflexivity|discriminate Hp|lia]).
      replace (Z.of_nat k - 8 + 6) with (Z.of_nat (k + 6) - 8) by lia.
      destruct (IH out val1 (k + 6)%nat) as (t & tail & Et & Lt & Bt); [lia| |].
      { replace (k + 6)%nat with (k + 3 * 2)%nat by lia. rewrite Nat.mod_add by lia. exact Hp. }
      exists t, tail. repeat split; auto. cbn [concat]. rewrite app_assoc, <- Hb. exact Bt.
Qed.

Lemma base64_decode_lemma : forall syms groups rest,
  Forall2 denotes syms groups ->
  (forall c r, rest = c :: r -> ~ In c rfc_alphabet) ->
  base64_decode (syms ++ rest) = octets (concat groups).
Proof.
  intros syms groups rest H2 Hr. unfold base64_decode.
  destruct (decode_loop_lemma syms groups rest [] 0 0) as (t & tail & E & L & B); auto; try lia.
  change (Z.of_nat 0 - 8) with (-8) in E. rewrite E. cbn [lowbits app] in B. rewrite B.
  rewrite octets_app_bytes, octets_short by exact L. rewrite app_nil_r. reflexivity.
Qed.

(** ** round trip *)

Lemma sextets_length : forall l, Forall (fun g => length g = 6%nat) (sextets l).
Proof.
  intros l. remember (length l) as n eqn:Hn. revert l Hn. induction n as [n IH] using lt_wf_ind. intros l Hn.
  destruct l as [|b5 [|b4 [|b3 [|b2 [|b1 [|b0 l]]]]]]; cbn [sextets]; repeat constructor.
  eapply IH; [|reflexivity]. cbn in Hn. lia.
Qed.

Lemma sextets_concat : forall l, exists z, (z < 6)%nat /\ concat (sextets l) = l ++ repeat false z.
Proof.
  intros l. remember (length l) as n eqn:Hn. revert l Hn. induction n as [n IH] using lt_wf_ind. intros l Hn.
  destruct l as [|b5 [|b4 [|b3 [|b2 [|b1 [|b0 l]]]]]].
  - exists 0%nat. split; [lia|reflexivity].
  - exists 5%nat. split; [lia|reflexivity].
  - exists 4%nat. split; [lia|reflexivity].
  - exists 3%nat. split; [lia|reflexivity].
  - exists 2%nat. split; [lia|reflexivity].
  - exists 1%nat. split; [lia|reflexivity].
  - destruct (IH (length l)) with (l := l) as (z & Hz & E); [cbn in Hn; lia|reflexivity|].
    exists z. split; [exact Hz|]. cbn [sextets concat app]. rewrite E. reflexivity.
Qed.

Lemma base64_round_trip : forall t, base64_decode (base64_encode t) = t.
Proof.
  intros t. rewrite base64_encode_rfc. unfold rfc4648_encode.
  rewrite (base64_decode_lemma _ (sextets (bits_of t))).
  - destruct (sextets_concat (bits_of t)) as (z & Hz & ->).
    rewrite octets_app_bytes, octets_short by (rewrite repeat_length; lia). apply app_nil_r.
  - pose proof (sextets_length (bits_of t)) as HF. induction HF as [|g l Hg HF IH]; cbn [map]; constructor; auto.
    split; [exact Hg|reflexivity].
  - intros c r Hc. destruct (padding _); [discriminate|]. cbn in Hc. inversion Hc; subst.
    rewrite <- memb_In. vm_compute. discriminate.
Qed.

Lemma sextets_count : forall l, length (sextets l) = ((length l + 5) / 6)%nat.
Proof.
  intros l. remember (length l) as n eqn:Hn. revert l Hn. induction n as [n IH] using lt_wf_ind. intros l Hn.
  destruct l as [|b5 [|b4 [|b3 [|b2 [|b1 [|b0 l]]]]]]; subst n; try reflexivity.
  cbn [sextets length]. rewrite (IH (length l)) by (cbn; auto; lia).
  replace (S (S (S (S (S (S (length l)))))) + 5)%nat with (length l + 5 + 1 * 6)%nat by lia.
  rewrite Nat.div_add by lia. lia.
Qed.

Lemma bits_of_length : forall t, length (bits_of t) = (8 * length t)%nat.
Proof.
  induction t as [|c t IH]; [reflexivity|]. rewrite bits_of_cons, app_length, IH. destruct c. cbn. lia.
Qed.

Lemma base64_length_lemma : forall t, length (base64_encode t) = (4 * ((length t + 2) / 3))%nat.
Proof.
  intros t. rewrite base64_encode_rfc. unfold rfc4648_encode.
  rewrite app_length, repeat_length, map_length, sextets_count, bits_of_length. unfold padding.
  pose proof (Nat.div_mod (8 * length t + 5) 6 ltac:(lia)) as A.
  pose proof (Nat.mod_upper_bound (8 * length t + 5) 6 ltac:(lia)) as A'.
  pose proof (Nat.div_mod (length t + 2) 3 ltac:(lia)) as B.
  pose proof (Nat.mod_upper_bound (length t + 2) 3 ltac:(lia)) as B'.
  set (q := ((8 * length t + 5) / 6)%nat) in *. set (p := ((length t + 2) / 3)%nat) in *.
  pose proof (Nat.div_mod q 4 ltac:(lia)) as C. pose proof (Nat.mod_upper_bound q 4 ltac:(lia)) as C'.
  destruct (q mod 4)%nat as [|[|[|[|r]]]] eqn:R; [..|lia].
  - change ((4 - 0) mod 4)%nat with 0%nat. lia.
  - change ((4 - 1) mod 4)%nat with 3%nat. lia.
  - change ((4 - 2) mod 4)%nat with 2%nat. lia.
  - change ((4 - 3) mod 4)%nat with 1%nat. lia.
Qed.

(** ** strict reading of shifts *)
Lemma encode_strict_refuted_lemma : exists t, encode_shifts_defined t 0 = false.
Proof. exists (s "abcde"). vm_compute. reflexivity. Qed.

Lemma encode_strict_step : forall n t val, (n <= 3)%nat -> 0 <= val < 2 ^ (8 * (3 - Z.of_nat n)) ->
  (length t <= S n)%nat -> encode_shifts_defined t val = true.
Proof.
  induction n as [|n IH]; intros t val Hn Hv Ht; (destruct t as [|c t]; [reflexivity|]); cbn [length] in Ht;
    cbn [encode_shifts_defined]; apply andb_true_iff.
  - destruct t; [|cbn [length] in Ht; lia]. split; [|reflexivity].
    unfold shift_defined. change (2 ^ (8 * (3 - Z.of_nat 0))) with 16777216 in Hv.
    change (2 ^ 8) with 256. change (2 ^ 32) with 4294967296. lia.
  - set (m := 3 - Z.of_nat (S n)) in *. assert (0 <= m <= 2) as Hm by lia.
    assert (2 ^ (8 * (3 - Z.of_nat n)) = 256 * 2 ^ (8 * m)) as E.
    { change 256 with (2 ^ 8). rewrite <- Z.pow_add_r by lia. f_equal. lia. }
    assert (2 ^ (8 * m) <= 65536) as Hb by (change 65536 with (2 ^ 16); apply Z.pow_le_mono_r; lia).
    pose proof (byte_range c) as Hc.
    assert (wrap32 (wrap32 (Z.shiftl val 8) + byte c) = val * 256 + byte c) as ->.
    { unfold wrap32. rewrite Z.shiftl_mul_pow2 by lia. change (2 ^ 8) with 256.
      change (2 ^ 32) with 4294967296. change (2 ^ 31) with 2147483648.
      rewrite (Z.mod_small (val * 256 + _)) by lia. rewrite Z.mod_small by lia. lia. }
    split.
    + unfold shift_defined. change (2 ^ 8) with 256. change (2 ^ 32) with 4294967296. lia.
    + apply IH; [lia| |lia]. rewrite E. lia.
Qed.

Lemma encode_strict_short_lemma : forall t, (length t <= 4)%nat -> encode_shifts_defined t 0 = true.
Proof. intros t Ht. apply (encode_strict_step 3); auto. cbn. lia. Qed.

Lemma octets_length : forall l, length (octets l) = (length l / 8)%nat.
Proof.
  intros l. remember (length l) as n eqn:Hn. revert l Hn. induction n as [n IH] using lt_wf_ind. intros l Hn.
  destruct l as [|b7 [|b6 [|b5 [|b4 [|b3 [|b2 [|b1 [|b0 l]]]]]]]]; subst n; try reflexivity.
  cbn [octets length]. rewrite (IH (length l)) by (cbn; auto; lia).
  replace (S (S (S (S (S (S (S (S (length l))))))))) with (length l + 1 * 8)%nat by lia.
  rewrite Nat.div_add by lia. lia.
Qed.

Lemma decode_covers_lemma : forall input, exists syms groups rest,
  input = syms ++ rest /\ Forall2 denotes syms groups /\
  (forall c r, rest = c :: r -> ~ In c rfc_alphabet) /\
  length (base64_decode input) = (6 * length syms / 8)%nat.
Proof.
  assert (forall input, exists syms groups rest,
    input = syms ++ rest /\ Forall2 denotes syms groups /\
    (forall c r, rest = c :: r -> ~ In c rfc_alphabet)) as D.
  { induction input as [|c input IH].
    - exists [], [], []. repeat split; auto. intros; discriminate.
    - destruct (in_dec ascii_dec c rfc_alphabet) as [Hin|Hout].
      + destruct IH as (syms & groups & rest & -> & H2 & Hr).
        exists (c :: syms), (lowbits 6 (decode_table c) :: groups), rest. repeat split; auto.
        constructor; [|exact H2]. apply decode_table_denotes. exact Hin.
      + exists [], [], (c :: input). repeat split; auto. intros c' r E. inversion E; subst. exact Hout. }
  intros input. destruct (D input) as (syms & groups & rest & E & H2 & Hr).
  exists syms, groups, rest. repeat split; auto.
  rewrite E, (base64_decode_lemma _ _ _ H2 Hr), octets_length. f_equal.
  clear - H2. induction H2 as [|c g syms groups [Hg _] H2 IH]; [reflexivity|].
  cbn [concat length]. rewrite app_length, IH, Hg. lia.
Qed.
