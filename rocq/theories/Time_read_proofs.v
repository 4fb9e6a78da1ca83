(** What string_to_timestamp accepts. *)
From Coq Require Import ZArith Lia ZifyBool.
From Verif Require Import Str Outcome Time_model Time_spec Time_proofs.
Local Open Scope Z_scope.

Lemma digit_of_value c d : digit_of c = Some d -> digit_value c d.
Proof.
  unfold digit_of, digit_value. destruct ((48 <=? Z.of_N (N_of_ascii c)) && (Z.of_N (N_of_ascii c) <=? 57)) eqn:E; [|discriminate].
  intros H. injection H as <-. lia.
Qed.

Lemma written_two a b x y : digit_value a x -> digit_value b y -> written [a; b] (10 * x + y).
Proof.
  intros A B. replace (10 * x + y) with (10 * (10 * 0 + x) + y) by lia. change [a; b] with (([] ++ [a]) ++ [b]).
  constructor; [constructor; [constructor|exact A]|exact B].
Qed.
Lemma written_four a b c d x y z w : digit_value a x -> digit_value b y -> digit_value c z -> digit_value d w ->
  written [a; b; c; d] (10 * (10 * (10 * x + y) + z) + w).
Proof.
  intros A B C D. change [a; b; c; d] with (([a; b] ++ [c]) ++ [d]).
  constructor; [constructor; [apply written_two; assumption|exact C]|exact D].
Qed.

Lemma extract_two_inv lo hi t v r : extract_num 2 lo hi t = Some (v, r) -> exists f, t = f ++ r /\ digits_between 2 lo hi f v.
Proof.
  unfold extract_num. destruct t as [|a [|b t]]; cbn [extract_loop Nat.eqb andb].
  - discriminate.
  - destruct (digit_of a); [|discriminate]. cbv zeta. destruct (_ || _); discriminate.
  - destruct (digit_of a) as [x|] eqn:A; [|discriminate]. cbv zeta. destruct (_ || _); [discriminate|].
    cbn [extract_loop]. destruct (digit_of b) as [y|] eqn:B; [|discriminate]. cbv zeta. change (10 / 10) with 1.
    destruct ((hi <? _) || _) eqn:C; [discriminate|]. cbn [extract_loop Nat.eqb].
    intros H. injection H as <- <-. exists [a; b]. split; [reflexivity|]. split; [reflexivity|].
    split; [|lia]. match goal with |- written _ ?e => replace e with (10 * x + y) by lia end.
    apply written_two; apply digit_of_value; assumption.
Qed.

Lemma extract_four_inv t v r : extract_num 4 0 9999 t = Some (v, r) ->
  exists f, t = f ++ r /\ (digits_between 4 0 9999 f v \/ digits_between 2 0 99 f (v + 100)).
Proof.
  unfold extract_num. cbn [Nat.eqb].
  destruct t as [|a t]; cbn [extract_loop]; [discriminate|].
  destruct (digit_of a) as [x|] eqn:A; [|discriminate]. apply digit_of_value in A as VA. cbv zeta.
  change (1000 / 10) with 100.
  destruct ((9999 <? (0 * 10 + x) * 1000) || _) eqn:C1; [unfold digit_value in VA; lia|]. clear C1.
  destruct t as [|b t]; cbn [extract_loop]; [discriminate|].
  destruct (digit_of b) as [y|] eqn:B; [|discriminate]. apply digit_of_value in B as VB. cbv zeta. change (100 / 10) with 10.
  destruct ((9999 <? ((0 * 10 + x) * 10 + y) * 100) || _) eqn:C1; [unfold digit_value in *; lia|]. clear C1.
  assert (Two : forall v r, Some ((0 * 10 + x) * 10 + y - 100, t) = Some (v, r) -> exists f, a :: b :: t = f ++ r /\ (digits_between 4 0 9999 f v \/ digits_between 2 0 99 f (v + 100))).
  { intros v0 r0 H. injection H as <- <-. exists [a; b]. split; [reflexivity|]. right. split; [reflexivity|].
    split; [match goal with |- written _ ?e => replace e with (10 * x + y) by lia end; apply written_two; assumption|]. unfold digit_value in *. lia. }
  destruct t as [|c t]; cbn [extract_loop]; [cbn [Nat.eqb andb]; apply Two|].
  destruct (digit_of c) as [z|] eqn:C; [|cbn [Nat.eqb andb]; apply Two]. apply digit_of_value in C as VC. cbv zeta. change (10 / 10) with 1. clear Two.
  destruct ((9999 <? (((0 * 10 + x) * 10 + y) * 10 + z) * 10) || _) eqn:C1; [unfold digit_value in *; lia|]. clear C1.
  destruct t as [|d t]; cbn [extract_loop]; [discriminate|].
  destruct (digit_of d) as [w|] eqn:D; [|discriminate]. apply digit_of_value in D as VD. cbv zeta.
  destruct ((9999 <? ((((0 * 10 + x) * 10 + y) * 10 + z) * 10 + w) * 1) || _) eqn:C1; [unfold digit_value in *; lia|]. clear C1.
  cbn [extract_loop Nat.eqb]. intros H. injection H as <- <-. exists [a; b; c; d]. split; [reflexivity|]. left. split; [reflexivity|].
  split; [match goal with |- written _ ?e => replace e with (10 * (10 * (10 * x + y) + z) + w) by lia end; apply written_four; assumption|]. unfold digit_value in *. lia.
Qed.

Lemma lower_dash d : Ascii.eqb (lower "-") (lower d) = true -> d = "-"%char.
Proof. destruct d as [[] [] [] [] [] [] [] []]; vm_compute; congruence. Qed.
Lemma lower_bar d : Ascii.eqb (lower "_") (lower d) = true -> d = "_"%char.
Proof. destruct d as [[] [] [] [] [] [] [] []]; vm_compute; congruence. Qed.

Lemma dash_inv items x t y : get_items (Lit "-" :: items) x t = Some y -> exists t', t = "-"%char :: t' /\ get_items items x t' = Some y.
Proof.
  cbn [get_items]. destruct t as [|d t]; [discriminate|]. change (is_space "-") with false. cbv iota.
  destruct (Ascii.eqb (lower "-") (lower d)) eqn:E; [|discriminate]. apply lower_dash in E as ->. eauto.
Qed.
Lemma bar_inv items x t y : get_items (Lit "_" :: items) x t = Some y -> exists t', t = "_"%char :: t' /\ get_items items x t' = Some y.
Proof.
  cbn [get_items]. destruct t as [|d t]; [discriminate|]. change (is_space "_") with false. cbv iota.
  destruct (Ascii.eqb (lower "_") (lower d)) eqn:E; [|discriminate]. apply lower_bar in E as ->. eauto.
Qed.
Lemma field_inv f items x t y : get_items (Fld f :: items) x t = Some y -> exists x' t', get_field f x t = Some (x', t') /\ get_items items x' t' = Some y.
Proof.
  cbn [get_items]. destruct t as [|d t]; [discriminate|]. destruct (get_field f x (d :: t)) as [[x' t']|]; [|discriminate]. eauto.
Qed.

Lemma space_cases c : is_space c = true -> In c (s " " ++ List.map ascii_of_nat [9; 10; 11; 12; 13]%nat).
Proof. destruct c as [[] [] [] [] [] [] [] []]; vm_compute; try discriminate; tauto. Qed.

Lemma spaces_skipped : forall t, exists sp, t = sp ++ skip_spaces t /\ forall c, In c sp -> In c (s " " ++ List.map ascii_of_nat [9; 10; 11; 12; 13]%nat).
Proof.
  induction t as [|c t (sp & E & H)]; [exists []; split; [reflexivity|intros c []]|]. cbn [skip_spaces]. destruct (is_space c) eqn:S.
  - exists (c :: sp). split; [cbn [app]; f_equal; exact E|]. intros d [<-|D]; [exact (space_cases c S)|exact (H d D)].
  - exists []. split; [reflexivity|intros d []].
Qed.

Lemma get_time_inv t x : get_time default_format t = Some x -> exists year y,
  begins_with_date t year y (t_mon x + 1) (t_mday x) (t_hour x) (t_min x) (t_sec x) /\
  ((length year = 4%nat /\ t_year x = y - 1900) \/ (length year = 2%nat /\ t_year x = y - 2000)).
Proof.
  rewrite default_items. unfold get_time. destruct (spaces_skipped t) as (sp & Et & Hsp). destruct (skip_spaces t) as [|c0 t0]; [discriminate|].
  remember (c0 :: t0) as r0 eqn:R0. clear R0 c0 t0. intros H.
  apply field_inv in H as (x1 & r1 & F1 & H). apply dash_inv in H as (q1 & -> & H).
  apply field_inv in H as (x2 & r2 & F2 & H). apply dash_inv in H as (q2 & -> & H).
  apply field_inv in H as (x3 & r3 & F3 & H). apply bar_inv in H as (q3 & -> & H).
  apply field_inv in H as (x4 & r4 & F4 & H). apply dash_inv in H as (q4 & -> & H).
  apply field_inv in H as (x5 & r5 & F5 & H). apply dash_inv in H as (q5 & -> & H).
  apply field_inv in H as (x6 & r6 & F6 & H). cbn [get_items] in H. injection H as <-.
  unfold get_field in *.
  destruct (extract_num 4 0 9999 r0) as [[y e1]|] eqn:X1; [|discriminate]. injection F1 as <- ->.
  destruct (extract_num 2 1 12 q1) as [[m e2]|] eqn:X2; [|discriminate]. injection F2 as <- ->.
  destruct (extract_num 2 1 31 q2) as [[d e3]|] eqn:X3; [|discriminate]. injection F3 as <- ->.
  destruct (extract_num 2 0 23 q3) as [[h e4]|] eqn:X4; [|discriminate]. injection F4 as <- ->.
  destruct (extract_num 2 0 59 q4) as [[mi e5]|] eqn:X5; [|discriminate]. injection F5 as <- ->.
  destruct (extract_num 2 0 60 q5) as [[sec e6]|] eqn:X6; [|discriminate]. injection F6 as <- ->.
  cbn [t_sec t_min t_hour t_mday t_mon t_year].
  apply extract_two_inv in X2 as (f2 & -> & D2). apply extract_two_inv in X3 as (f3 & -> & D3). apply extract_two_inv in X4 as (f4 & -> & D4).
  apply extract_two_inv in X5 as (f5 & -> & D5). apply extract_two_inv in X6 as (f6 & -> & D6).
  apply extract_four_inv in X1 as (f1 & -> & D1).
  assert (B : forall v, written f1 v -> begins_with_date t f1 v (m - 1 + 1) d h mi sec).
  { intros v Hv. replace (m - 1 + 1) with m by lia. exists sp, f2, f3, f4, f5, f6, r6. split; [rewrite Et; reflexivity|].
    split; [exact Hsp|]. repeat split; assumption || (apply D2 || apply D3 || apply D4 || apply D5 || apply D6). }
  destruct D1 as [(L & W & _)|(L & W & _)].
  - exists f1, y. split; [exact (B y W)|left; split; [exact L|reflexivity]].
  - exists f1, (y + 100). split; [exact (B _ W)|right; split; [exact L|lia]].
Qed.

Lemma accepted_lemma : forall t, (forall e, string_to_timestamp t default_format <> Throw e) ->
  exists year y m d h mi sec, begins_with_date t year y m d h mi sec /\ (length year = 4%nat \/ length year = 2%nat).
Proof.
  intros t H. unfold string_to_timestamp in H. destruct (get_time default_format t) as [x|] eqn:G; [|exfalso; exact (H _ eq_refl)].
  destruct (get_time_inv t x G) as (year & y & B & L). exists year, y, (t_mon x + 1), (t_mday x), (t_hour x), (t_min x), (t_sec x).
  split; [exact B|]. destruct L as [[L _]|[L _]]; auto.
Qed.

Lemma ret_inj {A} (a b : A) : Ret a = Ret b -> a = b.
Proof. intros H. injection H as H. exact H. Qed.

Lemma before_month_range y m : 0 <= m <= 11 -> 0 <= before_month y m <= 335.
Proof.
  intros H. unfold before_month.
  assert (X : 0 <= nth (Z.to_nat m) [0; 31; 59; 90; 120; 151; 181; 212; 243; 273; 304; 334] 0 <= 334).
  { assert (X : m = 0 \/ m = 1 \/ m = 2 \/ m = 3 \/ m = 4 \/ m = 5 \/ m = 6 \/ m = 7 \/ m = 8 \/ m = 9 \/ m = 10 \/ m = 11) by lia.
    repeat (destruct X as [-> | X]; [vm_compute; split; discriminate|]). subst m. vm_compute; split; discriminate. }
  destruct (leap y && (2 <=? m)); lia.
Qed.

Lemma ancient x : t_year x + 1900 <= 99 -> 0 <= t_mon x <= 11 -> t_mday x <= 31 -> t_hour x <= 23 -> t_min x <= 59 -> t_sec x <= 60 -> timegm_Z x < -9223372037.
Proof.
  intros Y M D H MI S. unfold timegm_Z. rewrite Z.div_small, Z.mod_small by lia. rewrite Z.add_0_r. set (y := t_year x + 1900) in *.
  unfold days_of, leaps. pose proof (before_month_range y (t_mon x) M). change (1969 / 4 - 1969 / 100 + 1969 / 400) with 477.
  pose proof (Z.div_mod (y - 1) 4 ltac:(lia)). pose proof (Z.mod_pos_bound (y - 1) 4 ltac:(lia)).
  pose proof (Z.div_mod (y - 1) 100 ltac:(lia)). pose proof (Z.mod_pos_bound (y - 1) 100 ltac:(lia)).
  pose proof (Z.div_mod (y - 1) 400 ltac:(lia)). pose proof (Z.mod_pos_bound (y - 1) 400 ltac:(lia)). lia.
Qed.

Lemma from_time_inv u z : from_time_t u = Ret z -> z = u * 1000000000 /\ -9223372037 <= u.
Proof.
  unfold from_time_t, clock_min, clock_max. cbv zeta. intros H. remember (u * 1000000000) as w eqn:E.
  destruct ((-9223372036854775808 <=? w) && (w <=? 9223372036854775807)) eqn:C; [|discriminate]. apply ret_inj in H. lia.
Qed.
Lemma timegm_inv x : timegm x <> -1 -> timegm x = timegm_Z x.
Proof. unfold timegm. cbv zeta. generalize (timegm_Z x). intros u. destruct (is_int (t_year (gmtime_tm u))); [reflexivity|congruence]. Qed.
Lemma string_inv t items z : string_to_timestamp t items = Ret z ->
  exists x, get_time items t = Some x /\ z = timegm_Z x * 1000000000 /\ -9223372037 <= timegm_Z x.
Proof.
  unfold string_to_timestamp. destruct (get_time items t) as [x|]; [|discriminate]. cbv zeta. intros H. exists x. split; [reflexivity|].
  pose proof (timegm_inv x) as T. revert H T. generalize (timegm x). intros u H T. destruct (u =? -1) eqn:N1; [discriminate|].
  rewrite <- T by lia. apply from_time_inv. exact H.
Qed.

Lemma read_lemma : forall t x, string_to_timestamp t default_format = Ret x ->
  exists year y m d h mi sec, begins_with_date t year y m d h mi sec /\ length year = 4%nat /\
    forall n, second_number y m d h mi sec n -> x = n * 1000000000.
Proof.
  intros t z H. apply string_inv in H as (x & G & -> & C).
  destruct (get_time_inv t x G) as (year & y & B & L). exists year, y, (t_mon x + 1), (t_mday x), (t_hour x), (t_min x), (t_sec x).
  split; [exact B|]. pose proof B as (sp & tm & td & th & tmi & ts & rest & _ & _ & W & (_ & _ & M) & (_ & _ & D) & (_ & _ & HH) & (_ & _ & MI) & (_ & _ & SS)).
  assert (L4 : length year = 4%nat /\ t_year x = y - 1900).
  { destruct L as [L|[L E]]; [exact L|]. exfalso.
    assert (Y : y <= 99).
    { clear - W L. destruct W as [|t v c d W V]; [lia|]. rewrite app_length in L. cbn [length] in L. destruct W as [|t v c' d' W V']; [unfold digit_value in *; lia|].
      rewrite app_length in L. cbn [length] in L. destruct W; [unfold digit_value in *; lia|]. rewrite app_length in L. cbn [length] in L. lia. }
    pose proof (ancient x ltac:(lia) ltac:(lia) ltac:(lia) ltac:(lia) ltac:(lia) ltac:(lia)). lia. }
  destruct L4 as [L4 Ey]. split; [exact L4|]. intros n (days & DN & H1 & H2 & H3 & ->).
  apply day_number_spec in DN as [V E]. apply (f_equal (fun v => v * 1000000000)). replace (t_mon x + 1 - 1) with (t_mon x) in * by lia. rewrite timegm_valid.
  - rewrite Ey. replace (y - 1900 + 1900) with y by lia. rewrite E. reflexivity.
  - unfold vtm. rewrite Ey. replace (y - 1900 + 1900) with y by lia. split; [exact V|]. lia.
Qed.
