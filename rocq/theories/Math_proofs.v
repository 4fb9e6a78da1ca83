From Coq Require Import ZArith NArith List Lia Bool ZifyBool ZifyNat ZifyN.
From Verif Require Import Str Outcome Math_model Math_spec.
Local Open Scope Z_scope.

(** ** Powers of two *)

Lemma land_pred_pow2 k : 0 <= k -> Z.land (2 ^ k) (2 ^ k - 1) = 0.
Proof.
  intros Hk. replace (2 ^ k - 1) with (Z.ones k) by (rewrite Z.ones_equiv; lia).
  rewrite Z.land_ones by lia. apply Z.mod_same. lia.
Qed.

(** n & (n-1) = 0 forces n to be a power of two *)
Lemma pow2_of_land : forall n, 0 < n -> Z.land n (n - 1) = 0 -> n = 2 ^ Z.log2 n.
Proof.
  intros n Hn H.
  pose proof (Z.log2_spec n Hn) as [Hlo Hhi].
  pose proof (Z.log2_nonneg n) as Hk.
  set (k := Z.log2 n) in *.
  destruct (Z.eq_dec n (2 ^ k)) as [E|NE]; [exact E|exfalso].
  assert (Hb1 : Z.testbit n k = true) by (apply Z.bit_log2; lia).
  assert (Hlog : Z.log2 (n - 1) = k).
  { apply Z.log2_unique; [lia|]. change (Z.succ k) with (k + 1) in *. unfold Z.succ in *. lia. }
  assert (Hb2 : Z.testbit (n - 1) k = true).
  { rewrite <- Hlog. apply Z.bit_log2. assert (0 < 2 ^ k) by (apply Z.pow_pos_nonneg; lia). lia. }
  assert (Z.testbit (Z.land n (n - 1)) k = true) by (rewrite Z.land_spec, Hb1, Hb2; reflexivity).
  rewrite H in *. rewrite Z.bits_0 in *. discriminate.
Qed.

Lemma is_power_of_2_iff n : in_u32 n -> is_power_of_2 n = true <-> exists k, 0 <= k /\ n = 2 ^ k.
Proof.
  unfold is_power_of_2, in_u32. intros Hn. destruct (n =? 0) eqn:E0.
  - split; [discriminate|]. intros (k & Hk & ->). assert (0 < 2 ^ k) by (apply Z.pow_pos_nonneg; lia). lia.
  - assert (Hpos : 0 < n) by lia. unfold u32. rewrite Z.mod_small by lia. split.
    + intros H. exists (Z.log2 n). split; [apply Z.log2_nonneg|]. apply pow2_of_land; lia.
    + intros (k & Hk & ->). rewrite land_pred_pow2 by lia. reflexivity.
Qed.

Lemma is_even_iff n : is_even n = true <-> exists k, n = 2 * k.
Proof.
  unfold is_even. change 1 with (Z.ones 1). rewrite Z.land_ones by lia. change (2 ^ 1) with 2.
  split.
  - intros H. exists (n / 2). pose proof (Z.div_mod n 2). lia.
  - intros (k & ->). rewrite Z.mul_comm, Z.mod_mul by lia. reflexivity.
Qed.

Lemma land_1 n : Z.land n 1 = n mod 2.
Proof. change 1 with (Z.ones 1). rewrite Z.land_ones by lia. reflexivity. Qed.

Lemma fast_module_spec nd a b : in_u32 a -> in_u32 b -> b <> 0 -> fast_module nd a b = Ret (a mod b).
Proof.
  unfold fast_module, in_u32. intros Ha Hb Hb0.
  replace (b =? 0) with false by lia. rewrite andb_false_r.
  destruct (a <? b) eqn:E1; [rewrite Z.mod_small by lia; reflexivity|].
  destruct (a =? b) eqn:E2; [assert (a = b) by lia; subst; rewrite Z.mod_same by lia; reflexivity|].
  destruct (b =? 2) eqn:E3; [assert (b = 2) by lia; subst; rewrite land_1; reflexivity|].
  destruct (is_power_of_2 b) eqn:E4; [|reflexivity].
  apply is_power_of_2_iff in E4; [|exact Hb]. destruct E4 as (k & Hk & ->).
  unfold u32. rewrite Z.mod_small by lia.
  replace (2 ^ k - 1) with (Z.ones k) by (rewrite Z.ones_equiv; lia).
  rewrite Z.land_ones by lia. reflexivity.
Qed.

Lemma shift_loop_spec : forall k fuel a, (k < fuel)%nat ->
  shift_loop fuel a (2 ^ Z.of_nat k) = Ret (a / 2 ^ Z.of_nat k).
Proof.
  induction k as [|k IH]; intros [|fuel] a Hf; try lia; cbn [shift_loop].
  - change (2 ^ Z.of_nat 0) with 1. cbn. rewrite Z.div_1_r. reflexivity.
  - rewrite Nat2Z.inj_succ, Z.pow_succ_r by lia.
    assert (Hp : 0 < 2 ^ Z.of_nat k) by (apply Z.pow_pos_nonneg; lia).
    replace (2 * 2 ^ Z.of_nat k =? 1) with false by lia.
    rewrite !Z.shiftr_div_pow2 by lia. change (2 ^ 1) with 2.
    replace (2 * 2 ^ Z.of_nat k / 2) with (2 ^ Z.of_nat k)
      by (rewrite Z.mul_comm, Z.div_mul; lia).
    rewrite IH by lia. rewrite Z.div_div by lia. reflexivity.
Qed.

Lemma fast_division_spec nd a b : in_u32 a -> in_u32 b -> b <> 0 ->
  fast_division nd a b = Ret (a / b).
Proof.
  unfold fast_division, in_u32. intros Ha Hb Hb0.
  replace (b =? 0) with false by lia. rewrite andb_false_r.
  destruct (a <? b) eqn:E1; [rewrite Z.div_small by lia; reflexivity|].
  destruct (a =? b) eqn:E2; [assert (a = b) by lia; subst; rewrite Z.div_same by lia; reflexivity|].
  destruct (b =? 1) eqn:E5; [assert (b = 1) by lia; subst; rewrite Z.div_1_r; reflexivity|].
  destruct (b =? 2) eqn:E3;
    [assert (b = 2) by lia; subst; rewrite Z.shiftr_div_pow2 by lia; reflexivity|].
  destruct (is_power_of_2 b) eqn:E4; [|reflexivity].
  apply is_power_of_2_iff in E4; [|exact Hb]. destruct E4 as (k & Hk & ->).
  assert (k < 32) by (apply (Z.pow_lt_mono_r_iff 2); lia).
  rewrite <- (Z2Nat.id k) by lia. rewrite shift_loop_spec by lia. reflexivity.
Qed.

Lemma fast_zero_divisor a : in_u32 a ->
  fast_module false a 0 = Abort /\ fast_division false a 0 = Abort /\
  (a <> 0 -> fast_module true a 0 = UB /\ fast_division true a 0 = UB) /\
  fast_module true 0 0 = Ret 0 /\ fast_division true 0 0 = Ret 1.
Proof.
  intros Ha. unfold in_u32 in Ha.
  split; [reflexivity|]. split; [reflexivity|]. split; [|split; reflexivity].
  intros H0. unfold fast_module, fast_division. cbn [negb andb].
  replace (a <? 0) with false by lia. replace (a =? 0) with false by lia.
  change (0 =? 2) with false. change (0 =? 1) with false. change (is_power_of_2 0) with false.
  split; reflexivity.
Qed.

(** ** Exponentiation *)

Lemma u32_mul_l a b : u32 (u32 a * b) = u32 (a * b).
Proof. unfold u32. rewrite Zmult_mod_idemp_l. reflexivity. Qed.
Lemma u32_mul_r a b : u32 (a * u32 b) = u32 (a * b).
Proof. unfold u32. rewrite Zmult_mod_idemp_r. reflexivity. Qed.
Lemma u32_add_l a b : u32 (u32 a + b) = u32 (a + b).
Proof. unfold u32. rewrite Zplus_mod_idemp_l. reflexivity. Qed.
Lemma u32_add_r a b : u32 (a + u32 b) = u32 (a + b).
Proof. unfold u32. rewrite Zplus_mod_idemp_r. reflexivity. Qed.
Lemma u32_small a : in_u32 a -> u32 a = a.
Proof. unfold in_u32, u32. intros. apply Z.mod_small. lia. Qed.
Lemma u32_range a : in_u32 (u32 a).
Proof. unfold in_u32, u32. apply Z.mod_pos_bound. lia. Qed.

Lemma u32_pow a (n : Z) : 0 <= n -> u32 (u32 a ^ n) = u32 (a ^ n).
Proof.
  intros Hn. pattern n. apply natlike_ind; [reflexivity| |exact Hn].
  intros x Hx IH. rewrite !Z.pow_succ_r by lia.
  rewrite u32_mul_l. rewrite <- u32_mul_r, IH, u32_mul_r. reflexivity.
Qed.

Lemma fast_exponential_pos_spec : forall p b, in_u32 b -> fast_exponential_pos b p = u32 (b ^ Zpos p).
Proof.
  induction p as [p IH|p IH|]; intros b Hb; cbn [fast_exponential_pos].
  - rewrite IH by apply u32_range. rewrite u32_mul_r.
    rewrite <- u32_mul_r, u32_pow, u32_mul_r by lia. f_equal.
    rewrite <- Z.pow_2_r, <- Z.pow_mul_r by lia.
    replace (Z.pos p~1) with (Z.succ (2 * Z.pos p)) by lia.
    rewrite Z.pow_succ_r by lia. reflexivity.
  - rewrite IH by apply u32_range. rewrite u32_pow by lia. f_equal.
    rewrite <- Z.pow_2_r, <- Z.pow_mul_r by lia. reflexivity.
  - rewrite Z.pow_1_r, u32_small by exact Hb. reflexivity.
Qed.

Lemma fast_exponential_spec b e : in_u32 b -> in_u32 e -> fast_exponential b e = b ^ e mod 2 ^ 32.
Proof.
  intros Hb He. destruct e as [|p|p]; cbn [fast_exponential].
  - reflexivity.
  - apply fast_exponential_pos_spec, Hb.
  - unfold in_u32 in He. lia.
Qed.

Lemma fast_exponential_exact b e : in_u32 b -> in_u32 e -> b ^ e < 2 ^ 32 -> fast_exponential b e = b ^ e.
Proof.
  intros Hb He H. rewrite fast_exponential_spec by assumption. apply Z.mod_small.
  unfold in_u32 in *. split; [apply Z.pow_nonneg; lia|exact H].
Qed.

(** ** Arithmetic progressions *)

Lemma progression_closed : forall n l i,
  2 * progression l i n = (2 * l + (Z.of_nat n - 1) * i) * Z.of_nat n.
Proof.
  induction n as [|n IH]; intros l i; cbn [progression].
  - cbn. lia.
  - rewrite Z.mul_add_distr_l, IH. nia.
Qed.

Lemma mod_double_half x : (2 * x) mod 2 ^ 32 / 2 = x mod 2 ^ 31.
Proof.
  change (2 ^ 32) with (2 * 2 ^ 31). rewrite Zmult_mod_distr_l.
  rewrite Z.mul_comm, Z.div_mul by lia. reflexivity.
Qed.

Lemma progression_sum_spec l i n : in_u32 n ->
  arithmetic_progression_sum l i n = progression l i (Z.to_nat n) mod 2 ^ 31.
Proof.
  intros Hn. unfold in_u32 in Hn. unfold arithmetic_progression_sum.
  rewrite (u32_mul_l (n - 1) i), u32_add_l, u32_add_r, u32_mul_l. unfold u32.
  pose proof (progression_closed (Z.to_nat n) l i) as H. rewrite Z2Nat.id in H by lia.
  rewrite <- H. apply mod_double_half.
Qed.

Lemma progression_nonneg : forall n l i, 0 <= l -> 0 <= i -> 0 <= progression l i n.
Proof.
  induction n as [|n IH]; intros l i Hl Hi; cbn [progression]; [lia|].
  pose proof (IH (l + i) i). lia.
Qed.

Lemma progression_sum_exact l i n : in_u32 l -> in_u32 i -> in_u32 n ->
  (arithmetic_progression_sum l i n = progression l i (Z.to_nat n)
   <-> progression l i (Z.to_nat n) < 2 ^ 31).
Proof.
  intros Hl Hi Hn. rewrite progression_sum_spec by assumption. unfold in_u32 in *.
  pose proof (progression_nonneg (Z.to_nat n) l i ltac:(lia) ltac:(lia)) as Hp.
  split.
  - intros <-. apply Z.mod_pos_bound. lia.
  - intros H. apply Z.mod_small. lia.
Qed.

Lemma progression_sum_refuted_lemma : exists l i n,
  in_u32 l /\ in_u32 i /\ in_u32 n /\ progression l i (Z.to_nat n) < 2 ^ 32 /\
  arithmetic_progression_sum l i n <> progression l i (Z.to_nat n).
Proof. exists (2 ^ 31), 0, 1. unfold in_u32. repeat split; try lia; vm_compute; discriminate. Qed.

(** ** Decimal notation *)

Lemma N_of_digit n : (n < 10)%N -> N_of_ascii (digit n) = (48 + n)%N.
Proof. intros H. unfold digit. apply N_ascii_embedding. lia. Qed.

Lemma number_of_app a b :
  number_of (a ++ b) = (number_of a * 10 ^ N.of_nat (length b) + number_of b)%N.
Proof.
  unfold number_of. rewrite fold_left_app. generalize (fold_left (fun n c => (10 * n + digit_value c)%N) a 0%N).
  induction b as [|c b IH] using rev_ind; intros n.
  - cbn. lia.
  - rewrite !fold_left_app. cbn [fold_left]. rewrite IH, app_length, Nat2N.inj_add.
    cbn [length]. rewrite N.pow_add_r. change (10 ^ N.of_nat 1)%N with 10%N. lia.
Qed.

Lemma number_of_cons c t :
  number_of (c :: t) = (digit_value c * 10 ^ N.of_nat (length t) + number_of t)%N.
Proof.
  change (c :: t) with ([c] ++ t). rewrite number_of_app. unfold number_of at 1. cbn [fold_left].
  lia.
Qed.

Lemma digit_value_digit n : (n < 10)%N -> digit_value (digit n) = n.
Proof. intros H. unfold digit_value. rewrite N_of_digit by exact H. lia. Qed.

Lemma is_digit_digit n : (n < 10)%N -> is_digit (digit n).
Proof. intros H. unfold is_digit. rewrite N_of_digit by exact H. lia. Qed.

Lemma digit_zero n : (n < 10)%N -> digit n = "0"%char -> n = 0%N.
Proof.
  intros H E. apply (f_equal N_of_ascii) in E. rewrite N_of_digit in E by exact H.
  change (N_of_ascii "0") with 48%N in E. lia.
Qed.

Lemma dec_loop_acc : forall fuel n acc, dec_loop fuel n acc = dec_loop fuel n [] ++ acc.
Proof.
  induction fuel as [|fuel IH]; intros n acc; cbn [dec_loop]; [reflexivity|].
  destruct (n / 10 =? 0)%N; [reflexivity|].
  rewrite (IH _ (_ :: acc)), (IH _ [_]), <- app_assoc. reflexivity.
Qed.

Lemma dec_loop_S fuel n :
  dec_loop (S fuel) n [] =
  if (n / 10 =? 0)%N then [digit (n mod 10)] else dec_loop fuel (n / 10) [] ++ [digit (n mod 10)].
Proof. cbn [dec_loop]. destruct (n / 10 =? 0)%N; [reflexivity|apply dec_loop_acc]. Qed.

Lemma dec_loop_decimal : forall fuel n, (n < 2 ^ N.of_nat (S fuel))%N -> decimal n (dec_loop (S fuel) n []).
Proof.
  induction fuel as [|fuel IH]; intros n Hn; rewrite dec_loop_S;
    (assert (Hm : (n mod 10 < 10)%N) by (apply N.mod_lt; lia));
    (assert (Hdm : n = (10 * (n / 10) + n mod 10)%N) by (apply N.div_mod; lia)).
  - change (2 ^ N.of_nat 1)%N with 2%N in Hn. replace (n / 10 =? 0)%N with true by lia.
    split; [discriminate|]. split; [|split].
    + constructor; [apply is_digit_digit; exact Hm|constructor].
    + rewrite number_of_cons, digit_value_digit by exact Hm. cbn. lia.
    + cbn [hd]. intros ->. reflexivity.
  - destruct (n / 10 =? 0)%N eqn:E.
    + split; [discriminate|]. split; [|split].
      * constructor; [apply is_digit_digit; exact Hm|constructor].
      * rewrite number_of_cons, digit_value_digit by exact Hm. cbn. lia.
      * cbn [hd]. intros ->. reflexivity.
    + rewrite Nat2N.inj_succ, N.pow_succ_r' in Hn.
      destruct (IH (n / 10)%N) as (Hne & Hd & Hv & Hz); [apply N.div_lt_upper_bound; lia|].
      split; [intros Heq; apply app_eq_nil in Heq; destruct Heq; discriminate|].
      split; [|split].
      * apply Forall_app. split; [exact Hd|]. constructor; [apply is_digit_digit; exact Hm|constructor].
      * rewrite number_of_app, Hv, number_of_cons, digit_value_digit by exact Hm. cbn [length number_of fold_left].
        change (10 ^ N.of_nat 1)%N with 10%N. change (10 ^ N.of_nat 0)%N with 1%N. lia.
      * intros Hh. destruct (dec_loop (S fuel) (n / 10) []) as [|c r] eqn:El; [contradiction|].
        cbn [app hd] in Hh. specialize (Hz Hh). rewrite Hz in Hv.
        unfold number_of in Hv. cbn in Hv. lia.
Qed.

Lemma dec_decimal n : decimal n (dec n).
Proof.
  unfold dec. apply dec_loop_decimal. rewrite Nat2N.inj_succ, N2Nat.id.
  destruct (N.eq_dec n 0) as [->|Hn]; [cbn; lia|]. apply N.log2_spec. lia.
Qed.

Lemma number_of_bound t : Forall is_digit t -> (number_of t < 10 ^ N.of_nat (length t))%N.
Proof.
  induction t as [|c t IH]; intros H.
  - cbn. lia.
  - apply Forall_cons_iff in H. destruct H as [Hc Ht]. specialize (IH Ht).
    rewrite number_of_cons. cbn [length]. rewrite Nat2N.inj_succ, N.pow_succ_r'.
    unfold is_digit in Hc. unfold digit_value. nia.
Qed.

(** Length of the decimal notation *)
Lemma decimal_length n t : decimal n t ->
  (n < 10 ^ N.of_nat (length t))%N /\ ((1 < length t)%nat -> (10 ^ N.of_nat (length t - 1) <= n)%N).
Proof.
  intros (Hne & Hd & Hv & Hz). split; [subst; apply number_of_bound, Hd|].
  intros Hl. destruct t as [|c t]; [contradiction|]. cbn [length] in *.
  rewrite number_of_cons in Hv. apply Forall_cons_iff in Hd. destruct Hd as [Hc Ht].
  assert (Hc0 : (1 <= digit_value c)%N).
  { unfold digit_value, is_digit in *. destruct (N.eq_dec (N_of_ascii c) 48) as [E|NE]; [|lia].
    exfalso. assert (Hcc : c = "0"%char).
    { rewrite <- (ascii_N_embedding c), E. reflexivity. }
    specialize (Hz Hcc). inversion Hz; subst; cbn in Hl; lia. }
  replace (S (length t) - 1)%nat with (length t) by lia. nia.
Qed.

(** Two decimal notations of the same number are equal *)
Lemma number_of_inj : forall a b, length a = length b -> Forall is_digit a -> Forall is_digit b ->
  number_of a = number_of b -> a = b.
Proof.
  induction a as [|x a IH]; intros [|y b] Hl Ha Hb E; try discriminate; [reflexivity|].
  apply Forall_cons_iff in Ha, Hb. destruct Ha as [Hx Ha], Hb as [Hy Hb].
  injection Hl as Hl. rewrite !number_of_cons, <- Hl in E.
  pose proof (number_of_bound a Ha) as Ba. pose proof (number_of_bound b Hb) as Bb. rewrite <- Hl in Bb.
  assert (Ed : digit_value x = digit_value y) by nia.
  assert (number_of a = number_of b) by (rewrite Ed in E; lia).
  f_equal; [|apply IH; assumption].
  unfold digit_value, is_digit in *.
  rewrite <- (ascii_N_embedding x), <- (ascii_N_embedding y). f_equal. lia.
Qed.

Lemma decimal_unique n a b : decimal n a -> decimal n b -> a = b.
Proof.
  intros Ha Hb.
  pose proof (decimal_length n a Ha) as [A1 A2]. pose proof (decimal_length n b Hb) as [B1 B2].
  destruct Ha as (Ha0 & Ha1 & Ha2 & Ha3), Hb as (Hb0 & Hb1 & Hb2 & Hb3).
  assert (length a = length b).
  { destruct (Nat.lt_trichotomy (length a) (length b)) as [H|[H|H]]; [|exact H|].
    - destruct a as [|x a]; [contradiction|cbn [length] in *].
      assert (P : (10 ^ N.of_nat (length b - 1) <= n)%N) by (apply B2; lia).
      assert (Q : (10 ^ N.of_nat (S (length a)) <= 10 ^ N.of_nat (length b - 1))%N) by (apply N.pow_le_mono_r; lia).
      lia.
    - destruct b as [|x b]; [contradiction|cbn [length] in *].
      assert (P : (10 ^ N.of_nat (length a - 1) <= n)%N) by (apply A2; lia).
      assert (Q : (10 ^ N.of_nat (S (length b)) <= 10 ^ N.of_nat (length a - 1))%N) by (apply N.pow_le_mono_r; lia).
      lia. }
  apply number_of_inj; auto. congruence.
Qed.

(** ** number_trailing_zeros_format *)

Definition in_int (z : Z) : Prop := - 2 ^ 31 <= z < 2 ^ 31.

Lemma to_int_small z : 0 <= z < 2 ^ 31 -> to_int z = z.
Proof. intros H. unfold to_int. rewrite Z.mod_small by lia. lia. Qed.

Lemma to_int_large z : 2 ^ 31 <= z < 2 ^ 32 -> to_int z < 0.
Proof.
  intros H. unfold to_int. replace (z + 2 ^ 31) with ((z - 2 ^ 31) + 1 * 2 ^ 32) by lia.
  rewrite Z.mod_add by lia. rewrite Z.mod_small by lia. lia.
Qed.

Lemma dec_Z_nonneg v : 0 <= v -> dec_Z v = dec (Z.to_N v).
Proof. intros H. unfold dec_Z. replace (v <? 0) with false by lia. reflexivity. Qed.

Lemma format_nonneg_lemma v n : 0 <= v < 2 ^ 31 -> 0 <= n < 2 ^ 31 ->
  exists text, decimal (Z.to_N v) text /\
  number_trailing_zeros_format v n true = Ret (repeat "0"%char (Z.to_nat n - length text) ++ text).
Proof.
  intros Hv Hn. exists (dec (Z.to_N v)). split; [apply dec_decimal|].
  unfold number_trailing_zeros_format, fill_left. rewrite to_int_small, dec_Z_nonneg by lia. reflexivity.
Qed.

Lemma format_neg_lemma v n : - 2 ^ 31 <= v < 0 -> 0 <= n < 2 ^ 31 ->
  exists text, decimal (Z.to_N (- v)) text /\
  number_trailing_zeros_format v n true =
  Ret (repeat "0"%char (Z.to_nat n - (1 + length text)) ++ "-"%char :: text).
Proof.
  intros Hv Hn. exists (dec (Z.to_N (- v))). split; [apply dec_decimal|].
  unfold number_trailing_zeros_format, fill_left, dec_Z. rewrite to_int_small by lia.
  replace (v <? 0) with true by lia. reflexivity.
Qed.

Lemma number_of_repeat_zero k t : number_of (repeat "0"%char k ++ t) = number_of t.
Proof.
  rewrite number_of_app. replace (number_of (repeat "0"%char k)) with 0%N; [lia|].
  induction k as [|k IH]; [reflexivity|]. cbn [repeat]. rewrite number_of_cons, <- IH. reflexivity.
Qed.

(** The rejection test for non-negative values and 1 to 9 characters *)
Lemma format_checked_lemma v n text : 0 <= v < 2 ^ 31 -> 1 <= n <= 9 -> decimal (Z.to_N v) text ->
  number_trailing_zeros_format v n false =
  if (Z.to_nat n <? length text)%nat then Throw PreconditionNotMet
  else Ret (repeat "0"%char (Z.to_nat n - length text) ++ text).
Proof.
  intros Hv Hn Ht. unfold number_trailing_zeros_format.
  assert (Hp : 10 ^ n < 2 ^ 32).
  { apply Z.le_lt_trans with (10 ^ 9); [apply Z.pow_le_mono_r; lia|lia]. }
  assert (Hp0 : 0 < 10 ^ n) by (apply Z.pow_pos_nonneg; lia).
  rewrite fast_exponential_exact by (unfold in_u32; lia).
  replace (10 ^ n =? 0) with false by lia.
  rewrite u32_small by (unfold in_u32; lia).
  pose proof (decimal_length _ _ Ht) as [L1 L2].
  assert (E : (0 <? v / 10 ^ n) = (Z.to_nat n <? length text)%nat).
  { destruct (0 <? v / 10 ^ n) eqn:Ed, (Z.to_nat n <? length text)%nat eqn:El; try reflexivity; exfalso.
    - assert (v < 10 ^ n); [|rewrite Z.div_small in Ed; lia].
      assert (H : (10 ^ N.of_nat (length text) <= 10 ^ Z.to_N n)%N) by (apply N.pow_le_mono_r; lia).
      assert (Z.of_N (10 ^ Z.to_N n) = 10 ^ n) by (rewrite N2Z.inj_pow, Z2N.id; lia). lia.
    - assert (10 ^ n <= v); [|assert (1 <= v / 10 ^ n) by (apply Z.div_le_lower_bound; lia); lia].
      assert (H : (10 ^ Z.to_N n <= 10 ^ N.of_nat (length text - 1))%N) by (apply N.pow_le_mono_r; lia).
      assert (Z.of_N (10 ^ Z.to_N n) = 10 ^ n) by (rewrite N2Z.inj_pow, Z2N.id; lia).
      specialize (L2 ltac:(lia)). lia. }
  rewrite E. destruct (Z.to_nat n <? length text)%nat; [reflexivity|].
  unfold fill_left. rewrite to_int_small, dec_Z_nonneg by lia.
  rewrite (decimal_unique _ _ _ (dec_decimal _) Ht). reflexivity.
Qed.

(** 32 characters and more: division by zero *)
Lemma format_div_by_zero_lemma v n : 32 <= n < 2 ^ 32 -> number_trailing_zeros_format v n false = UB.
Proof.
  intros Hn. unfold number_trailing_zeros_format.
  rewrite fast_exponential_spec by (unfold in_u32; lia).
  replace (10 ^ n) with (5 ^ n * 2 ^ (n - 32) * 2 ^ 32).
  - rewrite Z.mod_mul by lia. reflexivity.
  - rewrite <- Z.mul_assoc, <- Z.pow_add_r by lia. replace (n - 32 + 32) with n by lia.
    rewrite <- Z.pow_mul_l. reflexivity.
Qed.

(** Negative values are always rejected for up to 9 characters *)
Lemma format_negative_rejected_lemma v n : - 2 ^ 31 <= v < 0 -> 0 <= n <= 9 ->
  number_trailing_zeros_format v n false = Throw PreconditionNotMet.
Proof.
  intros Hv Hn. unfold number_trailing_zeros_format.
  assert (Hp : 10 ^ n <= 10 ^ 9) by (apply Z.pow_le_mono_r; lia).
  assert (Hp0 : 0 < 10 ^ n) by (apply Z.pow_pos_nonneg; lia).
  rewrite fast_exponential_exact by (unfold in_u32; lia).
  replace (10 ^ n =? 0) with false by lia.
  assert (E : u32 v = v + 2 ^ 32).
  { unfold u32. rewrite <- (Z.mod_add v 1 (2 ^ 32)) by lia. rewrite Z.mod_small by lia. lia. }
  rewrite E.
  assert (1 <= (v + 2 ^ 32) / 10 ^ n) by (apply Z.div_le_lower_bound; lia).
  replace (0 <? (v + 2 ^ 32) / 10 ^ n) with true by lia. reflexivity.
Qed.

Lemma format_checked_refuted_lemma : exists v n text,
  in_int v /\ in_u32 n /\ decimal (Z.to_N v) text /\ (length text <= Z.to_nat n)%nat /\
  number_trailing_zeros_format v n false = Throw PreconditionNotMet.
Proof.
  exists 2000000000, 10, (dec 2000000000). unfold in_int, in_u32.
  split; [lia|]. split; [lia|]. split; [apply (dec_decimal 2000000000)|].
  split; [vm_compute; lia|reflexivity].
Qed.
