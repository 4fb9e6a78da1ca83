(** Facts about rounding to binary64. *)
From Coq Require Import ZArith QArith Qround Qpower Qabs Lqa Lia.
From Verif Require Import Float_model.
Local Open Scope Q_scope.

Lemma two_pos e : 0 < 2 ^ e. Proof. apply Qpower_0_lt. reflexivity. Qed.
Lemma two_nz e : ~ 2 ^ e == 0. Proof. pose proof (two_pos e). lra. Qed.
Lemma two_plus a b : 2 ^ (a + b) == 2 ^ a * 2 ^ b. Proof. apply Qpower_plus. discriminate. Qed.
Lemma two_le a b : (a <= b)%Z -> 2 ^ a <= 2 ^ b. Proof. intro H. apply Qpower_le_compat_l; [exact H|discriminate]. Qed.
Lemma two_lt_inv a b : 2 ^ a < 2 ^ b -> (a < b)%Z. Proof. intro H. apply Qpower_lt_compat_l_inv in H; [exact H|reflexivity]. Qed.
Lemma two_Z n : (0 <= n)%Z -> 2 ^ n == inject_Z (2 ^ n). Proof. intro H. rewrite Zpower_Qpower by exact H. reflexivity. Qed.

Lemma inject_le a b : inject_Z a <= inject_Z b <-> (a <= b)%Z. Proof. rewrite <- Zle_Qle. reflexivity. Qed.
Lemma inject_lt a b : inject_Z a < inject_Z b <-> (a < b)%Z. Proof. rewrite <- Zlt_Qlt. reflexivity. Qed.

(** ** The nearest integer *)
Lemma floor_bounds q : inject_Z (Qfloor q) <= q /\ q < inject_Z (Qfloor q) + 1.
Proof. split; [apply Qfloor_le|]. pose proof (Qlt_floor q) as H. rewrite inject_Z_plus in H. exact H. Qed.

Lemma nearest_cases q : (nearest q = Qfloor q /\ q - inject_Z (Qfloor q) <= 1 # 2) \/ (nearest q = (Qfloor q + 1)%Z /\ 1 # 2 <= q - inject_Z (Qfloor q)).
Proof.
  unfold nearest. destruct (Qcompare_spec (q - inject_Z (Qfloor q)) (1 # 2)) as [H|H|H].
  - destruct (Z.even (Qfloor q)); [left|right]; (split; [reflexivity|lra]).
  - left. split; [reflexivity|lra].
  - right. split; [reflexivity|lra].
Qed.

Lemma nearest_err q : Qabs (inject_Z (nearest q) - q) <= 1 # 2.
Proof.
  destruct (floor_bounds q) as [F1 F2]. apply Qabs_Qle_condition. destruct (nearest_cases q) as [[-> H]|[-> H]]; rewrite ?inject_Z_plus; change (inject_Z 1) with 1; split; lra.
Qed.

Lemma nearest_ge q a : inject_Z a <= q -> (a <= nearest q)%Z.
Proof.
  intro H. assert (F : (a <= Qfloor q)%Z) by (rewrite <- (Qfloor_Z a); apply Qfloor_resp_le; exact H). destruct (nearest_cases q) as [[-> _]|[-> _]]; lia.
Qed.
Lemma nearest_le q a : q <= inject_Z a -> (nearest q <= a)%Z.
Proof.
  intro H. destruct (floor_bounds q) as [F1 F2]. destruct (nearest_cases q) as [[-> G]|[-> G]].
  - apply (proj1 (inject_le _ _)). lra.
  - assert (L : inject_Z (Qfloor q) < inject_Z a) by lra. apply (proj1 (inject_lt _ _)) in L. lia.
Qed.
Lemma nearest_Z a q : q == inject_Z a -> nearest q = a.
Proof. intro H. apply Z.le_antisymm; [apply nearest_le|apply nearest_ge]; rewrite H; apply Qle_refl. Qed.
Lemma nearest_comp p q : p == q -> nearest p = nearest q.
Proof.
  intro H. unfold nearest. assert (F : Qfloor p = Qfloor q) by (apply Qfloor_comp; exact H). rewrite F.
  rewrite (Qcompare_comp (p - inject_Z (Qfloor q)) (q - inject_Z (Qfloor q)) ltac:(rewrite H; reflexivity) (1 # 2) (1 # 2) ltac:(reflexivity)). reflexivity.
Qed.
Lemma nearest_mono p q : p <= q -> (nearest p <= nearest q)%Z.
Proof.
  intro H. destruct (Qeq_dec p q) as [E|E]; [rewrite (nearest_comp _ _ E); lia|].
  assert (L : p < q) by (apply Qle_lteq in H; destruct H as [H|H]; [exact H|contradiction]). clear H E.
  pose proof (floor_bounds p) as [P1 P2]. pose proof (floor_bounds q) as [Q1 Q2].
  assert (F : (Qfloor p <= Qfloor q)%Z) by (apply Qfloor_resp_le; lra).
  destruct (nearest_cases p) as [[Ep Hp]|[Ep Hp]], (nearest_cases q) as [[Eq Hq]|[Eq Hq]]; rewrite Ep, Eq; try lia.
  destruct (Z.eq_dec (Qfloor p) (Qfloor q)) as [E|]; [|lia]. rewrite E in *. lra.
Qed.

(** ** The exponent *)
Lemma expo_bounds x : 0 < x -> 2 ^ (expo x + 52) <= x /\ x < 2 ^ (expo x + 53).
Proof.
  intro H. destruct x as [n d]. assert (N : (0 < n)%Z) by (unfold Qlt in H; cbn in H; lia).
  pose proof (Z.log2_spec n N) as [N1 N2]. pose proof (Z.log2_spec (Zpos d) ltac:(lia)) as [D1 D2].
  pose proof (Z.log2_nonneg n) as NN. pose proof (Z.log2_nonneg (Zpos d)) as ND.
  set (a := Z.log2 n) in *. set (b := Z.log2 (Zpos d)) in *.
  assert (X : (n # d) == inject_Z n / inject_Z (Zpos d)) by (rewrite (Qmake_Qdiv n d); reflexivity).
  assert (A1 : 2 ^ a <= inject_Z n) by (rewrite two_Z by lia; apply inject_le; exact N1).
  assert (A2 : inject_Z n < 2 ^ (a + 1)) by (rewrite two_Z by lia; apply inject_lt; exact N2).
  assert (B1 : 2 ^ b <= inject_Z (Zpos d)) by (rewrite two_Z by lia; apply inject_le; exact D1).
  assert (B2 : inject_Z (Zpos d) < 2 ^ (b + 1)) by (rewrite two_Z by lia; apply inject_lt; exact D2).
  assert (DP : 0 < inject_Z (Zpos d)) by (pose proof (two_pos b); lra).
  assert (L : 2 ^ (a - b - 1) <= n # d).
  { rewrite X. apply Qle_shift_div_l; [exact DP|]. apply Qle_trans with (2 ^ (a - b - 1) * 2 ^ (b + 1)).
    - apply Qmult_le_l; [apply two_pos|lra].
    - rewrite <- two_plus. replace (a - b - 1 + (b + 1))%Z with a by lia. exact A1. }
  assert (U : n # d < 2 ^ (a - b + 1)).
  { rewrite X. apply Qlt_shift_div_r; [exact DP|]. apply Qlt_le_trans with (1 := A2). replace (a + 1)%Z with (a - b + 1 + b)%Z by lia. rewrite two_plus.
    apply Qmult_le_l; [apply two_pos|exact B1]. }
  unfold expo. cbn [Qnum Qden]. fold a b. destruct (Qle_bool (2 ^ (a - b - 53 + 53)) (n # d)) eqn:E.
  - apply Qle_bool_iff in E. split.
    + replace (a - b - 53 + 1 + 52)%Z with (a - b - 53 + 53)%Z by lia. exact E.
    + replace (a - b - 53 + 1 + 53)%Z with (a - b + 1)%Z by lia. exact U.
  - assert (G : n # d < 2 ^ (a - b - 53 + 53)). { apply Qnot_le_lt. intro Q. apply Qle_bool_iff in Q. congruence. }
    split; [|exact G]. replace (a - b - 53 + 52)%Z with (a - b - 1)%Z by lia. exact L.
Qed.

Lemma expo_mono x y : 0 < x -> x <= y -> (expo x <= expo y)%Z.
Proof.
  intros H L. destruct (expo_bounds x H) as [A _]. destruct (expo_bounds y ltac:(lra)) as [_ B].
  assert (C : 2 ^ (expo x + 52) < 2 ^ (expo y + 53)) by lra. apply two_lt_inv in C. lia.
Qed.

(** ** Rounding *)
Lemma rnd_pos x : 0 < x -> rnd x == inject_Z (nearest (x / 2 ^ place x)) * 2 ^ place x.
Proof.
  intro H. unfold rnd. destruct (Qle_bool x 0) eqn:E; [apply Qle_bool_iff in E; lra|]. rewrite Qred_correct. rewrite (nearest_comp _ _ (Qred_correct _)). reflexivity.
Qed.
Lemma rnd_0 : rnd 0 = 0. Proof. reflexivity. Qed.

Lemma place_upper x : 0 < x -> x / 2 ^ place x <= inject_Z (2 ^ 53).
Proof.
  intro H. pose proof (two_pos (place x)) as P. apply Qle_shift_div_r; [exact P|]. destruct (expo_bounds x H) as [_ B].
  rewrite <- two_Z by lia. rewrite <- two_plus. apply Qle_trans with (2 ^ (expo x + 53)); [lra|]. apply two_le. unfold place. lia.
Qed.

Lemma rnd_nonneg x : 0 <= rnd x.
Proof.
  destruct (Qlt_le_dec 0 x) as [H|H].
  - rewrite (rnd_pos _ H). apply Qmult_le_0_compat; [|pose proof (two_pos (place x)); lra]. change 0 with (inject_Z 0). apply inject_le. apply nearest_ge.
    apply Qle_shift_div_l; [apply two_pos|]. change (inject_Z 0) with 0. lra.
  - unfold rnd. rewrite (proj2 (Qle_bool_iff x 0) H). lra.
Qed.

Lemma rnd_mono x y : x <= y -> rnd x <= rnd y.
Proof.
  intro L. destruct (Qlt_le_dec 0 x) as [H|H]; [|unfold rnd at 1; rewrite (proj2 (Qle_bool_iff x 0) H); apply rnd_nonneg].
  assert (H' : 0 < y) by lra. rewrite (rnd_pos _ H), (rnd_pos _ H'). pose proof (expo_mono x y H L) as M.
  destruct (Z.eq_dec (place x) (place y)) as [E|E].
  - rewrite E. apply Qmult_le_compat_r; [|pose proof (two_pos (place y)); lra]. apply inject_le. apply nearest_mono. apply Qmult_le_compat_r; [exact L|]. apply Qlt_le_weak. apply Qinv_lt_0_compat. apply two_pos.
  - assert (P : (place x + 1 <= place y)%Z) by (unfold place in *; lia). assert (Y : place y = expo y) by (unfold place in *; lia).
    apply Qle_trans with (inject_Z (2 ^ 53) * 2 ^ place x).
    + apply Qmult_le_compat_r; [|pose proof (two_pos (place x)); lra]. apply inject_le. apply nearest_le. apply place_upper. exact H.
    + apply Qle_trans with (inject_Z (2 ^ 52) * 2 ^ place y).
      * rewrite <- !two_Z by lia. rewrite <- !two_plus. apply two_le. lia.
      * apply Qmult_le_compat_r; [|pose proof (two_pos (place y)); lra]. apply inject_le. apply nearest_ge. apply Qle_shift_div_l; [apply two_pos|].
        rewrite <- two_Z by lia. rewrite <- two_plus. destruct (expo_bounds y H') as [B _]. rewrite Y. replace (52 + expo y)%Z with (expo y + 52)%Z by lia. exact B.
Qed.

Lemma rnd_comp x y : x == y -> rnd x == rnd y.
Proof. intro H. apply Qle_antisym; apply rnd_mono; lra. Qed.

(** numbers that are doubles *)
Lemma rnd_exact m e x : (0 <= m <= 2 ^ 53)%Z -> (-1074 <= e)%Z -> x == inject_Z m * 2 ^ e -> rnd x == x.
Proof.
  intros M Ee X. destruct (Z.eq_dec m 0) as [->|N0]. { assert (Z0 : x == 0) by (rewrite X; change (inject_Z 0) with 0; ring). rewrite (rnd_comp _ _ Z0). rewrite rnd_0. symmetry. exact Z0. }
  assert (H : 0 < x). { rewrite X. apply Qmult_lt_0_compat; [|apply two_pos]. change 0 with (inject_Z 0). apply inject_lt. lia. }
  destruct (expo_bounds x H) as [B1 B2].
  assert (XE : (expo x <= e)%Z \/ m = (2 ^ 53)%Z).
  { destruct (Z.eq_dec m (2 ^ 53)) as [->|D]; [right; reflexivity|left].
    assert (C : 2 ^ (expo x + 52) < 2 ^ (53 + e)). { apply Qle_lt_trans with (1 := B1). rewrite X, two_plus. apply Qmult_lt_compat_r; [apply two_pos|]. rewrite two_Z by lia. apply inject_lt. lia. }
    apply two_lt_inv in C. lia. }
  destruct XE as [XE|XE].
  - assert (P : (place x <= e)%Z) by (unfold place; lia). rewrite (rnd_pos _ H).
    generalize dependent (place x). intros p P.
    assert (Q : x / 2 ^ p == inject_Z (m * 2 ^ (e - p))).
    { rewrite X. rewrite inject_Z_mult. rewrite <- (two_Z (e - p)) by lia. replace e with (e - p + p)%Z at 1 by lia. rewrite two_plus. field. apply two_nz. }
    rewrite (nearest_Z _ _ Q). rewrite <- Q. field. apply two_nz.
  - subst m. assert (XX : x == 2 ^ (53 + e)) by (rewrite X, two_plus, (two_Z 53) by lia; reflexivity).
    assert (C : (expo x <= e + 1)%Z). { assert (C : 2 ^ (expo x + 52) < 2 ^ (54 + e)). { apply Qle_lt_trans with (1 := B1). rewrite XX. apply Qpower_lt_compat_l; [lia|reflexivity]. } apply two_lt_inv in C. lia. }
    assert (P : (place x <= e + 1)%Z) by (unfold place; lia). rewrite (rnd_pos _ H).
    generalize dependent (place x). intros p P.
    assert (Q : x / 2 ^ p == inject_Z (2 ^ (53 + e - p))).
    { rewrite XX. rewrite <- (two_Z (53 + e - p)) by lia. replace (53 + e)%Z with (53 + e - p + p)%Z at 1 by lia. rewrite two_plus. field. apply two_nz. }
    rewrite (nearest_Z _ _ Q). rewrite <- Q. field. apply two_nz.
Qed.

Lemma rnd_Z z : (0 <= z <= 2 ^ 53)%Z -> rnd (inject_Z z) == inject_Z z.
Proof. intro H. apply (rnd_exact z 0); [exact H|lia|]. change (2 ^ 0) with 1. lra. Qed.

(** the error of a normal number *)
Lemma rnd_err x : 2 ^ (-1022) <= x -> Qabs (rnd x - x) <= x * (1 # 9007199254740992).
Proof.
  intro L. assert (H : 0 < x) by (pose proof (two_pos (-1022)); lra). destruct (expo_bounds x H) as [B1 B2].
  assert (P : place x = expo x). { assert (C : 2 ^ (-1022) < 2 ^ (expo x + 53)) by lra. apply two_lt_inv in C. unfold place. lia. }
  rewrite (rnd_pos _ H), P.
  assert (X : x == x / 2 ^ expo x * 2 ^ expo x) by (field; apply two_nz).
  assert (D : inject_Z (nearest (x / 2 ^ expo x)) * 2 ^ expo x - x == (inject_Z (nearest (x / 2 ^ expo x)) - x / 2 ^ expo x) * 2 ^ expo x) by (field; apply two_nz).
  rewrite D, Qabs_Qmult. rewrite (Qabs_pos (2 ^ expo x)) by (pose proof (two_pos (expo x)); lra).
  apply Qle_trans with ((1 # 2) * 2 ^ expo x).
  - apply Qmult_le_compat_r; [apply nearest_err|pose proof (two_pos (expo x)); lra].
  - assert (T : 2 ^ (expo x + 52) == 2 ^ expo x * 4503599627370496) by (rewrite two_plus; reflexivity). lra.
Qed.

(** integers up to 2^53 bound the rounding *)
Lemma rnd_le_Z x z : (0 <= z <= 2 ^ 53)%Z -> x <= inject_Z z -> rnd x <= inject_Z z.
Proof. intros H L. rewrite <- (rnd_Z z H). apply rnd_mono. exact L. Qed.
Lemma rnd_ge_Z x z : (0 <= z <= 2 ^ 53)%Z -> inject_Z z <= x -> inject_Z z <= rnd x.
Proof. intros H L. rewrite <- (rnd_Z z H). apply rnd_mono. exact L. Qed.
