(** Proofs about timestamps. *)
From Coq Require Import ZArith Lia ZifyBool.
From Verif Require Import Str Outcome Math_model Math_proofs Time_model Time_spec.
Local Open Scope Z_scope.

(** ** The calendar *)
Definition mlen (l : bool) (m : Z) : Z := nth (Z.to_nat m) [31; (if l then 29 else 28); 31; 30; 31; 30; 31; 31; 30; 31; 30; 31] 0.
Definition vdate (y m d : Z) : Prop := 0 <= m <= 11 /\ 1 <= d <= mlen (leap y) m.
Definition jan1 (y : Z) : Z := 365 * (y - 1970) + (leaps (y - 1) - leaps 1969).
Definition lp (y : Z) : Z := if leap y then 1 else 0.

Lemma div_step y k : 0 < k -> y / k = (y - 1) / k + (if y mod k =? 0 then 1 else 0).
Proof.
  intros K. pose proof (Z.div_mod y k ltac:(lia)) as E. pose proof (Z.mod_pos_bound y k K) as B. destruct (Z.eqb_spec (y mod k) 0) as [Z|N].
  - assert (X : (y - 1) / k = y / k - 1) by (symmetry; apply Z.div_unique with (r := k - 1); lia). lia.
  - assert (X : (y - 1) / k = y / k) by (symmetry; apply Z.div_unique with (r := y mod k - 1); lia). lia.
Qed.
Lemma leaps_step y : leaps y = leaps (y - 1) + lp y.
Proof.
  unfold leaps, lp, leap. rewrite (div_step y 4), (div_step y 100), (div_step y 400) by lia.
  assert (A : y mod 400 = 0 -> y mod 100 = 0). { intros H. apply Z.mod_divide in H; [|lia]. apply Z.mod_divide; [lia|]. destruct H as [k ->]. exists (k * 4). lia. }
  assert (B : y mod 100 = 0 -> y mod 4 = 0). { intros H. apply Z.mod_divide in H; [|lia]. apply Z.mod_divide; [lia|]. destruct H as [k ->]. exists (k * 25). lia. }
  destruct (Z.eqb_spec (y mod 4) 0), (Z.eqb_spec (y mod 100) 0), (Z.eqb_spec (y mod 400) 0); cbn; try lia; exfalso; auto.
Qed.
Lemma jan1_step y : jan1 (y + 1) = jan1 y + 365 + lp y.
Proof. unfold jan1. replace (y + 1 - 1) with y by lia. pose proof (leaps_step y) as E. lia. Qed.
Lemma lp_range y : 0 <= lp y <= 1.
Proof. unfold lp. destruct (leap y); lia. Qed.
Lemma jan1_mono y k : 0 <= k -> jan1 y + 365 * k <= jan1 (y + k).
Proof.
  revert k. apply natlike_ind; [rewrite (Z.add_0_r y); lia|]. intros k K IH. replace (y + Z.succ k) with (y + k + 1) by lia. rewrite jan1_step. pose proof (lp_range (y + k)). lia.
Qed.
Lemma jan1_era y k : jan1 (y + 400 * k) = jan1 y + 146097 * k.
Proof. unfold jan1, leaps. replace (y + 400 * k - 1) with (y - 1 + k * 400) by lia. rewrite Z.div_add by lia. replace (y - 1 + k * 400) with (y - 1 + (k * 4) * 100) at 2 by lia. rewrite Z.div_add by lia.
  replace (y - 1 + k * 400) with (y - 1 + (k * 100) * 4) by lia. rewrite Z.div_add by lia. lia. Qed.
Lemma leap_era y k : leap (y + 400 * k) = leap y.
Proof.
  unfold leap. replace ((y + 400 * k) mod 4) with (y mod 4) by (replace (y + 400 * k) with (y + (k * 100) * 4) by lia; rewrite Z.mod_add by lia; reflexivity).
  replace ((y + 400 * k) mod 100) with (y mod 100) by (replace (y + 400 * k) with (y + (k * 4) * 100) by lia; rewrite Z.mod_add by lia; reflexivity).
  replace ((y + 400 * k) mod 400) with (y mod 400) by (replace (y + 400 * k) with (y + k * 400) by lia; rewrite Z.mod_add by lia; reflexivity). reflexivity.
Qed.
Lemma days_split y m d : days_of y m d = jan1 y + before_month y m + (d - 1).
Proof. reflexivity. Qed.
Lemma days_era y m d k : days_of (y + 400 * k) m d = days_of y m d + 146097 * k.
Proof. rewrite !days_split, jan1_era. unfold before_month. rewrite leap_era. lia. Qed.

Ltac months m := let H := fresh in assert (H : m = 0 \/ m = 1 \/ m = 2 \/ m = 3 \/ m = 4 \/ m = 5 \/ m = 6 \/ m = 7 \/ m = 8 \/ m = 9 \/ m = 10 \/ m = 11) by lia; repeat (destruct H as [->|H]); [| | | | | | | | | | |subst m].

Ltac small := cbv [Z.to_nat Pos.to_nat Pos.iter_op Init.Nat.add nth andb Z.leb Z.compare Pos.compare Pos.compare_cont] in *.
Lemma year_day y m d : vdate y m d -> 0 <= before_month y m + (d - 1) < 365 + lp y.
Proof.
  intros [M D]. unfold before_month, lp, mlen in *. months m; destruct (leap y); small; lia.
Qed.
Lemma month_mono y m m' : 0 <= m -> m < m' <= 11 -> before_month y m + mlen (leap y) m <= before_month y m'.
Proof.
  intros A B. unfold before_month, mlen. assert (C : 0 <= m <= 11) by lia. assert (D : 0 <= m' <= 11) by lia. months m; months m'; try (exfalso; lia); destruct (leap y); small; lia.
Qed.

Definition date_less (y m d y' m' d' : Z) : Prop := y < y' \/ (y = y' /\ (m < m' \/ (m = m' /\ d < d'))).
Lemma days_mono y m d y' m' d' : vdate y m d -> vdate y' m' d' -> date_less y m d y' m' d' -> days_of y m d < days_of y' m' d'.
Proof.
  intros V V' [L|[-> [L|[-> L]]]]; rewrite !days_split.
  - pose proof (year_day _ _ _ V) as A. pose proof (year_day _ _ _ V') as A'. pose proof (jan1_mono (y + 1) (y' - (y + 1)) ltac:(lia)) as J. replace (y + 1 + (y' - (y + 1))) with y' in J by lia. rewrite jan1_step in J. lia.
  - destruct V as [M D], V' as [M' D']. pose proof (month_mono y' m m'). lia.
  - lia.
Qed.
Lemma date_total y m d y' m' d' : date_less y m d y' m' d' \/ (y = y' /\ m = m' /\ d = d') \/ date_less y' m' d' y m d.
Proof. unfold date_less. lia. Qed.
Lemma days_inj y m d y' m' d' : vdate y m d -> vdate y' m' d' -> days_of y m d = days_of y' m' d' -> y = y' /\ m = m' /\ d = d'.
Proof.
  intros V V' E. destruct (date_total y m d y' m' d') as [L|[L|L]]; [|exact L|].
  - pose proof (days_mono _ _ _ _ _ _ V V' L). lia.
  - pose proof (days_mono _ _ _ _ _ _ V' V L). lia.
Qed.
Lemma days_mono_inv y m d y' m' d' : vdate y m d -> vdate y' m' d' -> days_of y m d < days_of y' m' d' -> date_less y m d y' m' d'.
Proof.
  intros V V' E. destruct (date_total y m d y' m' d') as [L|[(-> & -> & ->)|L]]; [exact L|lia|]. pose proof (days_mono _ _ _ _ _ _ V' V L). lia.
Qed.

(** ** The date of a day *)
Definition vdateb (y m d : Z) : bool := (0 <=? m) && (m <=? 11) && (1 <=? d) && (d <=? mlen (leap y) m).
Definition good_day (doe : Z) : bool := let '(y, m, d) := date_of (doe - 719468) in vdateb y m d && (days_of y m d =? doe - 719468).
Fixpoint all_from (p : Z -> bool) (n : nat) (z : Z) : bool := match n with O => true | S n' => p z && all_from p n' (z + 1) end.
Lemma all_from_spec p n : forall z, all_from p n z = true -> forall x, z <= x < z + Z.of_nat n -> p x = true.
Proof.
  induction n as [|n IH]; intros z H x R; [lia|]. cbn [all_from] in H. apply andb_true_iff in H. destruct H as [A B]. destruct (Z.eq_dec x z) as [->|N]; [exact A|]. apply (IH (z + 1) B). lia.
Qed.
Lemma era_checked : all_from good_day (Z.to_nat 146097) 0 = true.
Proof. vm_compute. reflexivity. Qed.

Lemma date_of_era days : date_of days = let '(y, m, d) := date_of ((days + 719468) mod 146097 - 719468) in (y + 400 * ((days + 719468) / 146097), m, d).
Proof.
  unfold date_of. replace ((days + 719468) mod 146097 - 719468 + 719468) with ((days + 719468) mod 146097) by lia.
  pose proof (Z.mod_pos_bound (days + 719468) 146097 ltac:(lia)) as B. rewrite (Z.div_small ((days + 719468) mod 146097) 146097) by exact B. rewrite (Z.mod_small ((days + 719468) mod 146097) 146097) by exact B.
  cbv zeta. f_equal. f_equal. lia.
Qed.

Lemma date_of_lemma days : let '(y, m, d) := date_of days in vdate y m d /\ days_of y m d = days.
Proof.
  rewrite date_of_era. pose proof (Z.mod_pos_bound (days + 719468) 146097 ltac:(lia)) as B. pose proof (Z.div_mod (days + 719468) 146097 ltac:(lia)) as E.
  assert (G : good_day ((days + 719468) mod 146097) = true). { apply (all_from_spec _ _ _ era_checked). rewrite Z2Nat.id; lia. }
  unfold good_day in G. destruct (date_of ((days + 719468) mod 146097 - 719468)) as [[y m] d]. apply andb_true_iff in G. destruct G as [V D].
  rewrite days_era. unfold vdate, vdateb in *. rewrite leap_era. split; lia.
Qed.
Lemma date_unique y m d : vdate y m d -> date_of (days_of y m d) = (y, m, d).
Proof.
  intros V. pose proof (date_of_lemma (days_of y m d)) as H. destruct (date_of (days_of y m d)) as [[y' m'] d']. destruct H as [V' E]. destruct (days_inj _ _ _ _ _ _ V' V E) as (-> & -> & ->). reflexivity.
Qed.

(** ** The calendar of the specification *)
Lemma leap_spec y : leap_year y <-> leap y = true.
Proof.
  unfold leap_year, leap. rewrite <- !Z.mod_divide by lia. destruct (Z.eqb_spec (y mod 4) 0), (Z.eqb_spec (y mod 100) 0), (Z.eqb_spec (y mod 400) 0); cbn; intuition congruence.
Qed.
Lemma month_spec y m n : month_length y m n <-> 1 <= m <= 12 /\ n = mlen (leap y) (m - 1).
Proof.
  split.
  - intros [m' I|m' I|L|L]; [cbn in I|cbn in I|apply leap_spec in L; rewrite L; split; [lia|reflexivity]|].
    + split; [lia|]. repeat (destruct I as [<-|I]; [destruct (leap y); reflexivity|]). destruct I.
    + split; [lia|]. repeat (destruct I as [<-|I]; [destruct (leap y); reflexivity|]). destruct I.
    + split; [lia|]. destruct (leap y) eqn:E; [exfalso; apply L; apply leap_spec; exact E|reflexivity].
  - intros [M ->]. assert (H : m = 2 \/ In m [1; 3; 5; 7; 8; 10; 12] \/ In m [4; 6; 9; 11]) by (cbn; lia). destruct H as [->|[H|H]].
    + destruct (leap y) eqn:E; [apply february_leap; apply leap_spec; exact E|apply february; intros L; apply leap_spec in L; congruence].
    + cbn in H. repeat (destruct H as [<-|H]; [apply long; cbn; tauto|]). destruct H.
    + cbn in H. repeat (destruct H as [<-|H]; [apply short; cbn; tauto|]). destruct H.
Qed.

Lemma mlen_pos l k : 0 <= k <= 11 -> 28 <= mlen l k <= 31.
Proof. intros H. unfold mlen. months k; destruct l; small; lia. Qed.
Lemma month_next y k : 0 <= k <= 10 -> before_month y (k + 1) = before_month y k + mlen (leap y) k.
Proof. intros H. unfold before_month, mlen. assert (X : 0 <= k <= 11) by lia. months k; try (exfalso; lia); destruct (leap y); reflexivity. Qed.
Lemma next_lemma y m d y' m' d' : next_day (y, m, d) (y', m', d') -> vdate y (m - 1) d /\ vdate y' (m' - 1) d' /\ days_of y' (m' - 1) d' = days_of y (m - 1) d + 1.
Proof.
  intros H. inversion H as [y0 m0 d0 n ML D|y0 m0 n ML L|y0]; subst; try (apply month_spec in ML; destruct ML as [M ->]).
  - unfold vdate. rewrite !days_split. repeat split; lia.
  - pose proof (mlen_pos (leap y') (m - 1) ltac:(lia)) as P. pose proof (mlen_pos (leap y') (m + 1 - 1) ltac:(lia)) as Q. pose proof (month_next y' (m - 1) ltac:(lia)) as E. replace (m - 1 + 1) with (m + 1 - 1) in E by lia.
    unfold vdate. rewrite !days_split.
    repeat split; try lia.
  - change (12 - 1) with 11. change (1 - 1) with 0. unfold vdate. rewrite !days_split, jan1_step. unfold lp, before_month, mlen. destruct (leap y), (leap (y + 1)); small; repeat split; lia.
Qed.

Lemma next_exists y m d : vdate y (m - 1) d -> exists y' m' d', next_day (y, m, d) (y', m', d').
Proof.
  intros [M D]. destruct (Z_lt_le_dec d (mlen (leap y) (m - 1))) as [L|L].
  - exists y, m, (d + 1). eapply same_month; [apply month_spec; split; [lia|reflexivity]|]. lia.
  - assert (d = mlen (leap y) (m - 1)) as -> by lia. destruct (Z_lt_le_dec m 12) as [K|K].
    + exists y, (m + 1), 1. apply new_month; [|exact K]. apply month_spec. split; [lia|reflexivity].
    + assert (m = 12) as -> by lia. exists (y + 1), 1, 1. replace (mlen (leap y) (12 - 1)) with 31 by (destruct (leap y); reflexivity). apply new_year.
Qed.
Lemma prev_exists y m d : vdate y (m - 1) d -> exists y' m' d', next_day (y', m', d') (y, m, d).
Proof.
  intros [M D]. destruct (Z_lt_le_dec 1 d) as [L|L].
  - exists y, m, (d - 1). replace d with (d - 1 + 1) at 2 by lia. eapply same_month; [apply month_spec; split; [lia|reflexivity]|]. lia.
  - assert (d = 1) as -> by lia. destruct (Z_lt_le_dec 1 m) as [K|K].
    + exists y, (m - 1), (mlen (leap y) (m - 1 - 1)). replace m with (m - 1 + 1) at 3 by lia. apply new_month; [|lia]. apply month_spec. split; [lia|reflexivity].
    + assert (m = 1) as -> by lia. exists (y - 1), 12, 31. replace y with (y - 1 + 1) at 2 by lia. apply new_year.
Qed.

Lemma number_up n : 0 <= n -> forall y m d, vdate y (m - 1) d -> days_of y (m - 1) d = n -> day_number (y, m, d) n.
Proof.
  revert n. apply (natlike_ind (fun n => forall y m d, vdate y (m - 1) d -> days_of y (m - 1) d = n -> day_number (y, m, d) n)).
  - intros y m d V E. destruct (days_inj y (m - 1) d 1970 0 1 V) as (-> & A & ->); [unfold vdate; change (mlen (leap 1970) 0) with 31; lia|rewrite E; reflexivity|]. assert (m = 1) as -> by lia. apply epoch.
  - intros n N IH y m d V E. destruct (prev_exists _ _ _ V) as (y' & m' & d' & X). destruct (next_lemma _ _ _ _ _ _ X) as (V1 & _ & E1). apply (after (y', m', d')); [|exact X]. apply IH; [exact V1|lia].
Qed.
Lemma number_down n : 0 <= n -> forall y m d, vdate y (m - 1) d -> days_of y (m - 1) d = - n -> day_number (y, m, d) (- n).
Proof.
  revert n. apply (natlike_ind (fun n => forall y m d, vdate y (m - 1) d -> days_of y (m - 1) d = - n -> day_number (y, m, d) (- n))).
  - intros y m d V E. apply (number_up 0); [lia|exact V|exact E].
  - intros n N IH y m d V E. destruct (next_exists _ _ _ V) as (y' & m' & d' & X). destruct (next_lemma _ _ _ _ _ _ X) as (_ & V1 & E1). replace (- Z.succ n) with (- n - 1) by lia. apply (earlier _ (y', m', d')); [|exact X]. apply IH; [exact V1|lia].
Qed.
Lemma day_number_spec y m d n : day_number (y, m, d) n <-> vdate y (m - 1) d /\ days_of y (m - 1) d = n.
Proof.
  split.
  - intros H. remember (y, m, d) as a eqn:E. revert y m d E. induction H as [|[[y1 m1] d1] b n H IH X|a [[y1 m1] d1] n H IH X]; intros y m d E.
    + injection E as <- <- <-. split; [unfold vdate; change (mlen (leap 1970) (1 - 1)) with 31; lia|reflexivity].
    + subst b. destruct (next_lemma _ _ _ _ _ _ X) as (_ & V & D). destruct (IH _ _ _ eq_refl) as [_ K]. split; [exact V|lia].
    + subst a. destruct (next_lemma _ _ _ _ _ _ X) as (V & _ & D). destruct (IH _ _ _ eq_refl) as [_ K]. split; [exact V|lia].
  - intros [V E]. destruct (Z_le_gt_dec 0 n) as [L|L]; [apply number_up; assumption|]. replace n with (- (- n)) by lia. apply number_down; [lia|exact V|lia].
Qed.

(** ** gmtime and timegm *)
Definition vtm (x : tm) : Prop := vdate (t_year x + 1900) (t_mon x) (t_mday x) /\ 0 <= t_hour x < 24 /\ 0 <= t_min x < 60 /\ 0 <= t_sec x < 60.
Lemma timegm_valid x : vtm x -> timegm_Z x = days_of (t_year x + 1900) (t_mon x) (t_mday x) * 86400 + t_hour x * 3600 + t_min x * 60 + t_sec x.
Proof. intros [[M _] _]. unfold timegm_Z. rewrite Z.div_small, Z.mod_small by lia. rewrite Z.add_0_r. reflexivity. Qed.
Lemma gmtime_lemma t : vtm (gmtime_tm t) /\ timegm_Z (gmtime_tm t) = t.
Proof.
  assert (V : vtm (gmtime_tm t) /\ days_of (t_year (gmtime_tm t) + 1900) (t_mon (gmtime_tm t)) (t_mday (gmtime_tm t)) = t / 86400).
  { unfold gmtime_tm, vtm. pose proof (date_of_lemma (t / 86400)) as H. destruct (date_of (t / 86400)) as [[y m] d]. destruct H as [V E]. cbn [t_sec t_min t_hour t_mday t_mon t_year].
    replace (y - 1900 + 1900) with y by lia. pose proof (Z.mod_pos_bound t 86400 ltac:(lia)) as B. split; [|exact E]. split; [exact V|].
    split; [split; [apply Z.div_pos; lia|apply Z.div_lt_upper_bound; lia]|]. split; [apply Z.mod_pos_bound; lia|]. apply Z.mod_pos_bound. lia. }
  destruct V as [V E]. split; [exact V|]. rewrite (timegm_valid _ V), E. unfold gmtime_tm. destruct (date_of (t / 86400)) as [[y m] d]. cbn [t_sec t_min t_hour].
  pose proof (Z.div_mod t 86400 ltac:(lia)). set (r := t mod 86400) in *. pose proof (Z.div_mod r 60 ltac:(lia)). pose proof (Z.div_mod (r / 60) 60 ltac:(lia)).
  replace (r / 3600) with (r / 60 / 60) by (rewrite Z.div_div by lia; reflexivity). lia.
Qed.
Lemma tm_ext x y : t_sec x = t_sec y -> t_min x = t_min y -> t_hour x = t_hour y -> t_mday x = t_mday y -> t_mon x = t_mon y -> t_year x = t_year y -> x = y.
Proof. destruct x, y. cbn. intros; subst. reflexivity. Qed.

Definition tm_less (x y : tm) : Prop :=
  date_less (t_year x) (t_mon x) (t_mday x) (t_year y) (t_mon y) (t_mday y) \/
  (t_year x = t_year y /\ t_mon x = t_mon y /\ t_mday x = t_mday y /\ (t_hour x < t_hour y \/ (t_hour x = t_hour y /\ (t_min x < t_min y \/ (t_min x = t_min y /\ t_sec x < t_sec y))))).
Lemma timegm_mono x y : vtm x -> vtm y -> tm_less x y -> timegm_Z x < timegm_Z y.
Proof.
  intros V W [L|(A & B & C & L)].
  - rewrite (timegm_valid _ V), (timegm_valid _ W). destruct V as [V ?], W as [W ?]. pose proof (days_mono _ _ _ _ _ _ V W) as D. unfold date_less in *. lia.
  - rewrite (timegm_valid _ V), (timegm_valid _ W). rewrite A, B, C. destruct V as [V ?], W as [W ?]. lia.
Qed.
Lemma tm_total x y : tm_less x y \/ x = y \/ tm_less y x.
Proof.
  destruct (Z.eq_dec (t_year x) (t_year y)), (Z.eq_dec (t_mon x) (t_mon y)), (Z.eq_dec (t_mday x) (t_mday y)), (Z.eq_dec (t_hour x) (t_hour y)), (Z.eq_dec (t_min x) (t_min y)), (Z.eq_dec (t_sec x) (t_sec y));
    try (right; left; apply tm_ext; assumption); unfold tm_less, date_less; lia.
Qed.
Lemma gmtime_unique x : vtm x -> gmtime_tm (timegm_Z x) = x.
Proof.
  intros V. destruct (gmtime_lemma (timegm_Z x)) as [W E]. destruct (tm_total (gmtime_tm (timegm_Z x)) x) as [L|[L|L]]; [|exact L|].
  - pose proof (timegm_mono _ _ W V L). lia.
  - pose proof (timegm_mono _ _ V W L). lia.
Qed.
Lemma gmtime_mono a b : a < b -> tm_less (gmtime_tm a) (gmtime_tm b).
Proof.
  intros L. destruct (gmtime_lemma a) as [V E], (gmtime_lemma b) as [W F]. destruct (tm_total (gmtime_tm a) (gmtime_tm b)) as [K|[K|K]]; [exact K|rewrite K in E; lia|].
  pose proof (timegm_mono _ _ W V K). lia.
Qed.

(** ** The range of the clock *)
Lemma seconds_range t : in_clock (t * 1000000000) <-> -9223372036 <= t <= 9223372036.
Proof. unfold in_clock, clock_min, clock_max. lia. Qed.
Lemma quot_range x : in_clock x -> -9223372036 <= to_time_t x <= 9223372036.
Proof. unfold in_clock, clock_min, clock_max, to_time_t. intros H. pose proof (Z.quot_rem' x 1000000000) as E. destruct (Z_le_gt_dec 0 x) as [P|P].
  - pose proof (Z.rem_bound_pos x 1000000000 P ltac:(lia)). lia.
  - pose proof (Z.rem_bound_pos_neg x 1000000000 ltac:(lia) ltac:(lia)). lia.
Qed.
Ltac closed := repeat split; vm_compute; first [reflexivity|discriminate|intros X; discriminate X].
Lemma year_range t : -9223372036 <= t <= 9223372036 -> -223 <= t_year (gmtime_tm t) <= 362.
Proof.
  intros R. destruct (gmtime_lemma t) as [V E]. split.
  - destruct (Z_le_gt_dec (-223) (t_year (gmtime_tm t))) as [|G]; [assumption|]. exfalso.
    pose proof (timegm_mono (gmtime_tm t) {| t_sec := 0; t_min := 0; t_hour := 0; t_mday := 1; t_mon := 0; t_year := -223 |} V) as M. rewrite E in M.
    assert (X : t < timegm_Z {| t_sec := 0; t_min := 0; t_hour := 0; t_mday := 1; t_mon := 0; t_year := -223 |}) by (apply M; [closed|left; left; cbn [t_year]; lia]).
    match type of X with context [timegm_Z ?a] => let v := eval vm_compute in (timegm_Z a) in change (timegm_Z a) with v in X end. lia.
  - destruct (Z_le_gt_dec (t_year (gmtime_tm t)) 362) as [|G]; [assumption|]. exfalso.
    pose proof (timegm_mono {| t_sec := 59; t_min := 59; t_hour := 23; t_mday := 31; t_mon := 11; t_year := 362 |} (gmtime_tm t)) as M. rewrite E in M.
    assert (X : timegm_Z {| t_sec := 59; t_min := 59; t_hour := 23; t_mday := 31; t_mon := 11; t_year := 362 |} < t) by (apply M; [closed|exact V|left; left; cbn [t_year]; lia]).
    match type of X with context [timegm_Z ?a] => let v := eval vm_compute in (timegm_Z a) in change (timegm_Z a) with v in X end. lia.
Qed.
Lemma is_int_small z : -2147483648 <= z <= 2147483647 -> is_int z = true.
Proof. unfold is_int, int_min, int_max. lia. Qed.

(** ** Texts *)
Lemma chr_digit d : 0 <= d < 10 -> digit_of (chr d) = Some d /\ is_space (chr d) = false /\ N_of_ascii (chr d) = Z.to_N (48 + d).
Proof.
  intros H. assert (X : d = 0 \/ d = 1 \/ d = 2 \/ d = 3 \/ d = 4 \/ d = 5 \/ d = 6 \/ d = 7 \/ d = 8 \/ d = 9) by lia.
  repeat (destruct X as [->|X]; [repeat split; reflexivity|]). subst d. repeat split; reflexivity.
Qed.
Lemma extract_two v lo hi r : 0 <= lo -> lo <= v <= hi -> hi < 100 -> extract_num 2 lo hi (two v ++ r) = Some (v, r).
Proof.
  intros L V H. pose proof (Z.div_mod v 10 ltac:(lia)) as E. pose proof (Z.mod_pos_bound v 10 ltac:(lia)) as B. assert (A : 0 <= v / 10 < 10) by (split; [apply Z.div_pos|apply Z.div_lt_upper_bound]; lia).
  unfold extract_num, two. cbn [app extract_loop Nat.eqb]. destruct (chr_digit _ A) as [-> _]. destruct (chr_digit _ B) as [-> _]. cbn zeta.
  replace ((hi <? (0 * 10 + v / 10) * 10) || ((0 * 10 + v / 10) * 10 + 10 <? lo + 1)) with false by lia.
  change (10 / 10) with 1. replace (((0 * 10 + v / 10) * 10 + v mod 10) * 1) with v by lia. replace ((hi <? v) || (v + 1 <? lo + 1)) with false by lia.
  cbn. f_equal. f_equal. lia.
Qed.
Definition four (z : Z) : str := [chr (z / 1000); chr (z / 100 mod 10); chr (z / 10 mod 10); chr (z mod 10)].
Lemma years_checked : all_from (fun y => str_eqb (dec_Z y) (four y)) (Z.to_nat 9000) 1000 = true.
Proof. vm_compute. reflexivity. Qed.
Lemma str_eqb_true a b : str_eqb a b = true -> a = b.
Proof. revert b. induction a as [|x a IH]; intros [|y b] H; cbn in H; try discriminate; [reflexivity|]. apply andb_true_iff in H. destruct H as [A B]. apply Ascii.eqb_eq in A as ->. f_equal. auto. Qed.
Lemma year_text y : 1000 <= y <= 9999 -> dec_Z y = four y.
Proof. intros H. apply str_eqb_true. apply (all_from_spec _ _ _ years_checked y). rewrite Z2Nat.id; lia. Qed.
Lemma extract_four v r : 1000 <= v <= 9999 -> extract_num 4 0 9999 (four v ++ r) = Some (v, r).
Proof.
  intros H. unfold extract_num, four. cbn [app extract_loop Nat.eqb].
  pose proof (Z.div_mod v 10 ltac:(lia)) as E1. pose proof (Z.div_mod (v / 10) 10 ltac:(lia)) as E2. pose proof (Z.div_mod (v / 100) 10 ltac:(lia)) as E3.
  assert (D2 : v / 10 / 10 = v / 100) by (rewrite Z.div_div by lia; reflexivity). assert (D3 : v / 100 / 10 = v / 1000) by (rewrite Z.div_div by lia; reflexivity).
  assert (A : 0 <= v / 1000 < 10) by (split; [apply Z.div_pos|apply Z.div_lt_upper_bound]; lia).
  destruct (chr_digit _ A) as [-> _]. pose proof (Z.mod_pos_bound (v / 100) 10 ltac:(lia)) as B1. destruct (chr_digit _ B1) as [-> _]. pose proof (Z.mod_pos_bound (v / 10) 10 ltac:(lia)) as B2. destruct (chr_digit _ B2) as [-> _].
  pose proof (Z.mod_pos_bound v 10 ltac:(lia)) as B3. destruct (chr_digit _ B3) as [-> _]. cbn zeta. change (1000 / 10) with 100. change (100 / 10) with 10. change (10 / 10) with 1.
  rewrite D2 in E2. rewrite D3 in E3. set (a := v / 1000) in *. set (b := v / 100 mod 10) in *. set (c := v / 10 mod 10) in *. set (d := v mod 10) in *. clearbody a b c d.
  replace (9999 <? (0 * 10 + a) * 1000) with false by lia. replace ((0 * 10 + a) * 1000 + 1000 <? 0 + 1) with false by lia. cbn [orb].
  replace (9999 <? ((0 * 10 + a) * 10 + b) * 100) with false by lia. replace (((0 * 10 + a) * 10 + b) * 100 + 100 <? 0 + 1) with false by lia. cbn [orb].
  replace (9999 <? (((0 * 10 + a) * 10 + b) * 10 + c) * 10) with false by lia. replace ((((0 * 10 + a) * 10 + b) * 10 + c) * 10 + 10 <? 0 + 1) with false by lia. cbn [orb].
  replace (9999 <? ((((0 * 10 + a) * 10 + b) * 10 + c) * 10 + d) * 1) with false by lia. replace (((((0 * 10 + a) * 10 + b) * 10 + c) * 10 + d) * 1 + 1 <? 0 + 1) with false by lia. cbn [orb].
  replace ((((0 * 10 + a) * 10 + b) * 10 + c) * 10 + d) with v by lia. reflexivity.
Qed.

Definition set_field (f : field) (x y : tm) : tm :=
  match f with
  | Year => {| t_sec := t_sec x; t_min := t_min x; t_hour := t_hour x; t_mday := t_mday x; t_mon := t_mon x; t_year := t_year y |}
  | Month => {| t_sec := t_sec x; t_min := t_min x; t_hour := t_hour x; t_mday := t_mday x; t_mon := t_mon y; t_year := t_year x |}
  | Day => {| t_sec := t_sec x; t_min := t_min x; t_hour := t_hour x; t_mday := t_mday y; t_mon := t_mon x; t_year := t_year x |}
  | Hour => {| t_sec := t_sec x; t_min := t_min x; t_hour := t_hour y; t_mday := t_mday x; t_mon := t_mon x; t_year := t_year x |}
  | Minute => {| t_sec := t_sec x; t_min := t_min y; t_hour := t_hour x; t_mday := t_mday x; t_mon := t_mon x; t_year := t_year x |}
  | Second => {| t_sec := t_sec y; t_min := t_min x; t_hour := t_hour x; t_mday := t_mday x; t_mon := t_mon x; t_year := t_year x |}
  end.
Definition field_of (f : field) (x : tm) : Z := match f with Year => t_year x | Month => t_mon x | Day => t_mday x | Hour => t_hour x | Minute => t_min x | Second => t_sec x end.

Definition printable (x : tm) : Prop := vtm x /\ 1000 <= t_year x + 1900 <= 9999.

Lemma get_put f x x0 r : printable x -> get_field f x0 (put_field f x ++ r) = Some (set_field f x0 x, r).
Proof.
  intros [([M D] & H & MI & S) Y]. pose proof (mlen_pos (leap (t_year x + 1900)) (t_mon x) M) as L. unfold get_field, put_field, set_field. destruct f.
  - rewrite year_text by exact Y. rewrite extract_four by exact Y. do 3 f_equal. lia.
  - rewrite extract_two by lia. do 3 f_equal. lia.
  - rewrite extract_two by lia. reflexivity.
  - rewrite extract_two by lia. reflexivity.
  - rewrite extract_two by lia. reflexivity.
  - rewrite extract_two by lia. reflexivity.
Qed.
Lemma put_nonempty f x : printable x -> exists c t, put_field f x = c :: t /\ is_space c = false.
Proof.
  intros [([M D] & H & MI & S) Y]. pose proof (mlen_pos (leap (t_year x + 1900)) (t_mon x) M) as L.
  assert (T : forall v, 0 <= v < 100 -> exists c t, two v = c :: t /\ is_space c = false).
  { intros v V. unfold two. eexists. eexists. split; [reflexivity|]. apply chr_digit. split; [apply Z.div_pos|apply Z.div_lt_upper_bound]; lia. }
  unfold put_field. destruct f; try (apply T; lia). rewrite year_text by exact Y. eexists. eexists. split; [reflexivity|]. apply chr_digit. split; [apply Z.div_pos|apply Z.div_lt_upper_bound]; lia.
Qed.

Definition sets (x : tm) (items : list item) (x0 : tm) : tm := fold_left (fun a i => match i with Fld f => set_field f a x | Lit _ => a end) items x0.
Lemma get_items_lemma x items : printable x -> (forall c, In (Lit c) items -> is_space c = false) -> forall x0, get_items items x0 (put_time items x) = Some (sets x items x0).
Proof.
  intros P. induction items as [|i items IH]; intros NS x0; [reflexivity|]. unfold put_time. cbn [List.map concat]. fold (put_time items x).
  assert (NS' : forall c, In (Lit c) items -> is_space c = false) by (intros c I; apply NS; right; exact I). destruct i as [c|f]; cbn [put_item get_items sets fold_left].
  - cbn [app]. rewrite NS by (left; reflexivity). rewrite Ascii.eqb_refl. apply IH. exact NS'.
  - destruct (put_nonempty f x P) as (c & t & E & _). pose proof (get_put f x x0 (put_time items x) P) as G. rewrite E in *. cbn [app] in *. rewrite G. apply IH. exact NS'.
Qed.
Lemma set_field_of f g x0 x : field_of g (set_field f x0 x) = field_of g x \/ field_of g (set_field f x0 x) = field_of g x0.
Proof. destruct f, g; cbn; auto. Qed.
Lemma sets_keep x g items : forall x0, field_of g x0 = field_of g x -> field_of g (sets x items x0) = field_of g x.
Proof.
  induction items as [|i items IH]; intros x0 E; [exact E|]. cbn [sets fold_left]. apply IH. destruct i as [c|f]; [exact E|]. destruct (set_field_of f g x0 x) as [H|H]; congruence.
Qed.
Lemma sets_field x g items : In (Fld g) items -> forall x0, field_of g (sets x items x0) = field_of g x.
Proof.
  induction items as [|i items IH]; intros I x0; [destruct I|]. destruct I as [->|I]; cbn [sets fold_left].
  - apply sets_keep. destruct g; reflexivity.
  - apply IH. exact I.
Qed.
Lemma sets_all x items x0 : (forall f, In (Fld f) items) -> sets x items x0 = x.
Proof.
  intros H. pose proof (fun g => sets_field x g items (H g) x0) as F.
  apply tm_ext; [apply (F Second)|apply (F Minute)|apply (F Hour)|apply (F Day)|apply (F Month)|apply (F Year)].
Qed.

Lemma get_time_lemma x items : printable x -> complete items -> get_time items (put_time items x) = Some x.
Proof.
  intros P [A NS]. unfold get_time. assert (E : exists c t, put_time items x = c :: t /\ is_space c = false).
  { destruct items as [|i items]; [destruct (A Year)|]. unfold put_time. cbn [List.map concat]. destruct i as [c|f]; cbn [put_item].
    - eexists. eexists. split; [reflexivity|]. apply NS. left. reflexivity.
    - destruct (put_nonempty f x P) as (c & t & E & S). rewrite E. eexists. eexists. split; [reflexivity|exact S]. }
  destruct E as (c & t & E & S). assert (SK : skip_spaces (put_time items x) = put_time items x) by (rewrite E; cbn; rewrite S; reflexivity).
  rewrite SK. pose proof (get_items_lemma x items P NS tm0) as G. rewrite sets_all in G by exact A. rewrite E in *. exact G.
Qed.

(** ** The functions *)
Lemma gmtime_clock t : -9223372036 <= t <= 9223372036 -> gmtime t = Some (gmtime_tm t) /\ printable (gmtime_tm t) /\ timegm (gmtime_tm t) = t.
Proof.
  intros R. pose proof (year_range _ R) as Y. destruct (gmtime_lemma t) as [V E]. unfold gmtime, timegm. rewrite E. rewrite is_int_small by lia. split; [reflexivity|]. split; [|reflexivity]. split; [exact V|lia].
Qed.
Lemma from_time_lemma t : -9223372036 <= t <= 9223372036 -> from_time_t t = Ret (t * 1000000000).
Proof. intros R. apply seconds_range in R. unfold from_time_t, in_clock in *. replace ((clock_min <=? t * 1000000000) && (t * 1000000000 <=? clock_max)) with true by lia. reflexivity. Qed.

Lemma to_string_lemma x items : in_clock x -> timestamp_to_string x items = Ret (put_time items (gmtime_tm (to_time_t x))).
Proof. intros C. unfold timestamp_to_string. destruct (gmtime_clock _ (quot_range _ C)) as (-> & _). reflexivity. Qed.
Lemma round_trip_lemma items x : complete items -> in_clock x -> to_time_t x <> -1 ->
  exists t, timestamp_to_string x items = Ret t /\ string_to_timestamp t items = Ret (to_time_t x * 1000000000).
Proof.
  intros CO C N. exists (put_time items (gmtime_tm (to_time_t x))). split; [apply to_string_lemma; exact C|]. unfold string_to_timestamp.
  destruct (gmtime_clock _ (quot_range _ C)) as (_ & P & T). rewrite get_time_lemma by assumption. rewrite T. destruct (Z.eqb_spec (to_time_t x) (-1)) as [E|_]; [contradiction|]. apply from_time_lemma. apply quot_range. exact C.
Qed.
Lemma whole_lemma n : to_time_t (n * 1000000000) = n.
Proof. unfold to_time_t. apply Z.quot_mul. lia. Qed.
Lemma round_trip_whole items n : complete items -> in_clock (n * 1000000000) -> n <> -1 ->
  exists t, timestamp_to_string (n * 1000000000) items = Ret t /\ string_to_timestamp t items = Ret (n * 1000000000).
Proof. intros CO C N. pose proof (round_trip_lemma items _ CO C) as H. rewrite whole_lemma in H. apply H. exact N. Qed.
Lemma minus_one_lemma items : complete items -> exists t, timestamp_to_string (-1 * 1000000000) items = Ret t /\ string_to_timestamp t items = Throw ValueNotAllowed.
Proof.
  intros CO. assert (C : in_clock (-1 * 1000000000)) by (apply seconds_range; lia). eexists. split; [apply to_string_lemma; exact C|]. unfold string_to_timestamp.
  destruct (gmtime_clock _ (quot_range _ C)) as (_ & P & T). rewrite get_time_lemma by assumption. rewrite T. rewrite whole_lemma. reflexivity.
Qed.

Lemma second_spec y m d h mi sec n : second_number y m d h mi sec n ->
  vtm {| t_sec := sec; t_min := mi; t_hour := h; t_mday := d; t_mon := m - 1; t_year := y - 1900 |} /\ timegm_Z {| t_sec := sec; t_min := mi; t_hour := h; t_mday := d; t_mon := m - 1; t_year := y - 1900 |} = n.
Proof.
  intros (days & D & H & MI & S & ->). apply day_number_spec in D. destruct D as [V E].
  assert (X : vtm {| t_sec := sec; t_min := mi; t_hour := h; t_mday := d; t_mon := m - 1; t_year := y - 1900 |}).
  { unfold vtm. cbn [t_sec t_min t_hour t_mday t_mon t_year]. replace (y - 1900 + 1900) with y by lia. auto. }
  split; [exact X|]. rewrite (timegm_valid _ X). cbn [t_sec t_min t_hour t_mday t_mon t_year]. replace (y - 1900 + 1900) with y by lia. rewrite E. reflexivity.
Qed.
Lemma to_int_small z : 0 <= z < 2147483648 -> to_int z = z.
Proof. intros H. unfold to_int. change (2 ^ 31) with 2147483648. change (2 ^ 32) with 4294967296. rewrite Z.mod_small by lia. lia. Qed.

Lemma date_lemma y m d h mi sec n : 0 <= y < 2147483648 -> second_number y m d h mi sec n ->
  date_to_timestamp y m d h mi sec = from_time_t n.
Proof.
  intros Y S. destruct (second_spec _ _ _ _ _ _ _ S) as [V E]. pose proof V as ([M D] & H & MI & SE). cbn [t_sec t_min t_hour t_mday t_mon t_year] in *.
  pose proof (mlen_pos (leap (y - 1900 + 1900)) (m - 1) M) as L. unfold date_to_timestamp, int_sub. rewrite !to_int_small by lia. rewrite !is_int_small by lia. cbn [obind].
  unfold timegm. rewrite E. rewrite <- E at 1. rewrite gmtime_unique by exact V. cbn [t_year]. rewrite is_int_small by lia. reflexivity.
Qed.
Lemma date_calendar_lemma y m d h mi sec n : 0 <= y < 2147483648 -> second_number y m d h mi sec n -> in_clock (n * 1000000000) -> date_to_timestamp y m d h mi sec = Ret (n * 1000000000).
Proof. intros Y S C. rewrite (date_lemma _ _ _ _ _ _ _ Y S). apply from_time_lemma. apply seconds_range. exact C. Qed.
Lemma date_overflow_lemma y m d h mi sec n : 0 <= y < 2147483648 -> second_number y m d h mi sec n -> ~ in_clock (n * 1000000000) -> date_to_timestamp y m d h mi sec = UB.
Proof.
  intros Y S C. rewrite (date_lemma _ _ _ _ _ _ _ Y S). unfold from_time_t, in_clock in *. destruct ((clock_min <=? n * 1000000000) && (n * 1000000000 <=? clock_max)) eqn:E; [|reflexivity]. exfalso. apply C. lia.
Qed.

(** dates have one number and numbers have one date *)
Lemma calendar_lemma : (forall n, exists y m d, day_number (y, m, d) n) /\ (forall y m d n n', day_number (y, m, d) n -> day_number (y, m, d) n' -> n = n').
Proof.
  split.
  - intros n. pose proof (date_of_lemma n) as H. destruct (date_of n) as [[y m] d]. destruct H as [V E]. exists y, (m + 1), d. apply day_number_spec. replace (m + 1 - 1) with m by lia. auto.
  - intros y m d n n' A B. apply day_number_spec in A. apply day_number_spec in B. destruct A as [_ <-], B as [_ <-]. reflexivity.
Qed.

Lemma time_lemma now h mi sec : in_clock now -> 0 <= h < 24 -> 0 <= mi < 60 -> 0 <= sec < 60 ->
  let n := to_time_t now / 86400 * 86400 + h * 3600 + mi * 60 + sec in in_clock (n * 1000000000) -> time_to_timestamp now h mi sec = Ret (n * 1000000000).
Proof.
  intros C H MI S n CN. unfold time_to_timestamp. destruct (gmtime_clock _ (quot_range _ C)) as (-> & [([M D] & _) Y] & _). rewrite !to_int_small by lia.
  set (x := {| t_sec := sec; t_min := mi; t_hour := h; t_mday := t_mday (gmtime_tm (to_time_t now)); t_mon := t_mon (gmtime_tm (to_time_t now)); t_year := t_year (gmtime_tm (to_time_t now)) |}).
  assert (V : vtm x) by (unfold vtm, x; cbn [t_sec t_min t_hour t_mday t_mon t_year]; unfold vdate; auto).
  assert (E : timegm_Z x = n).
  { rewrite (timegm_valid _ V). unfold x, n. cbn [t_sec t_min t_hour t_mday t_mon t_year]. unfold gmtime_tm. pose proof (date_of_lemma (to_time_t now / 86400)) as K. destruct (date_of (to_time_t now / 86400)) as [[yy mm] dd].
    cbn [t_mday t_mon t_year]. replace (yy - 1900 + 1900) with yy by lia. destruct K as [_ ->]. reflexivity. }
  unfold timegm. rewrite E. rewrite <- E at 1. rewrite gmtime_unique by exact V. unfold x at 1. cbn [t_year]. rewrite is_int_small by lia. apply from_time_lemma. apply seconds_range. exact CN.
Qed.

(** ** Order *)
Lemma less_prefix p a b : text_less a b -> text_less (p ++ a) (p ++ b).
Proof. intros H. induction p as [|c p IH]; [exact H|]. cbn. apply less_tail. exact IH. Qed.
Lemma chr_less a b : 0 <= a < 10 -> 0 <= b < 10 -> a < b -> (N_of_ascii (chr a) < N_of_ascii (chr b))%N.
Proof. intros A B L. destruct (chr_digit a A) as (_ & _ & ->). destruct (chr_digit b B) as (_ & _ & ->). lia. Qed.
Lemma two_less a b r r' : 0 <= a < 100 -> 0 <= b < 100 -> a < b -> text_less (two a ++ r) (two b ++ r').
Proof.
  intros A B L. pose proof (Z.div_mod a 10 ltac:(lia)). pose proof (Z.div_mod b 10 ltac:(lia)). pose proof (Z.mod_pos_bound a 10 ltac:(lia)). pose proof (Z.mod_pos_bound b 10 ltac:(lia)). unfold two. cbn [app].
  destruct (Z.eq_dec (a / 10) (b / 10)) as [E|N]; [rewrite E; apply less_tail|]; apply less_head; apply chr_less; lia.
Qed.
Lemma four_less a b r r' : 1000 <= a <= 9999 -> 1000 <= b <= 9999 -> a < b -> text_less (four a ++ r) (four b ++ r').
Proof.
  intros A B L. assert (D : forall v, v = v / 1000 * 1000 + v / 100 mod 10 * 100 + v / 10 mod 10 * 10 + v mod 10).
  { intros v. pose proof (Z.div_mod v 10 ltac:(lia)). pose proof (Z.div_mod (v / 10) 10 ltac:(lia)) as E2. pose proof (Z.div_mod (v / 100) 10 ltac:(lia)) as E3. rewrite Z.div_div in E2, E3 by lia. change (10 * 10) with 100 in E2. change (100 * 10) with 1000 in E3. lia. }
  pose proof (D a) as DA. pose proof (D b) as DB. assert (RA : 0 <= a / 1000 < 10) by (split; [apply Z.div_pos|apply Z.div_lt_upper_bound]; lia). assert (RB : 0 <= b / 1000 < 10) by (split; [apply Z.div_pos|apply Z.div_lt_upper_bound]; lia).
  pose proof (Z.mod_pos_bound a 10 ltac:(lia)). pose proof (Z.mod_pos_bound b 10 ltac:(lia)). pose proof (Z.mod_pos_bound (a / 10) 10 ltac:(lia)). pose proof (Z.mod_pos_bound (b / 10) 10 ltac:(lia)). pose proof (Z.mod_pos_bound (a / 100) 10 ltac:(lia)). pose proof (Z.mod_pos_bound (b / 100) 10 ltac:(lia)).
  unfold four. cbn [app].
  destruct (Z.eq_dec (a / 1000) (b / 1000)) as [E1|N]; [rewrite E1; apply less_tail|apply less_head; apply chr_less; lia].
  destruct (Z.eq_dec (a / 100 mod 10) (b / 100 mod 10)) as [E2|N]; [rewrite E2; apply less_tail|apply less_head; apply chr_less; lia].
  destruct (Z.eq_dec (a / 10 mod 10) (b / 10 mod 10)) as [E3|N]; [rewrite E3; apply less_tail|apply less_head; apply chr_less; lia].
  apply less_head; apply chr_less; lia.
Qed.

Lemma default_items : default_format = [Fld Year; Lit "-"%char; Fld Month; Lit "-"%char; Fld Day; Lit "_"%char; Fld Hour; Lit "-"%char; Fld Minute; Lit "-"%char; Fld Second].
Proof. reflexivity. Qed.
Lemma default_complete : complete default_format.
Proof. rewrite default_items. split; [intros []; cbn; tauto|]. intros c H. cbn in H. repeat (destruct H as [H|H]; [try discriminate; injection H as <-; reflexivity|]). destruct H. Qed.

Lemma put_less x y : printable x -> printable y -> tm_less x y -> text_less (put_time default_format x) (put_time default_format y).
Proof.
  intros [([M D] & H & MI & S) Y] [([M' D'] & H' & MI' & S') Y'] L. pose proof (mlen_pos (leap (t_year x + 1900)) (t_mon x) M). pose proof (mlen_pos (leap (t_year y + 1900)) (t_mon y) M').
  rewrite default_items. unfold put_time. cbn [List.map concat put_item put_field]. rewrite !year_text by assumption.
  destruct L as [[L|[E [L|[E' L]]]]|(E1 & E2 & E3 & [L|[E4 [L|[E5 L]]]])].
  - apply four_less; lia.
  - rewrite E. apply less_prefix. cbn [app]. apply less_tail. apply two_less; lia.
  - rewrite E, E'. apply less_prefix. cbn [app]. apply less_tail. apply less_prefix. apply less_tail. apply two_less; lia.
  - rewrite E1, E2, E3. do 3 (apply less_prefix; cbn [app]; apply less_tail). apply two_less; lia.
  - rewrite E1, E2, E3, E4. do 4 (apply less_prefix; cbn [app]; apply less_tail). apply two_less; lia.
  - rewrite E1, E2, E3, E4, E5. do 5 (apply less_prefix; cbn [app]; apply less_tail). apply two_less; lia.
Qed.
Lemma sorted_lemma a b : in_clock a -> in_clock b -> to_time_t a < to_time_t b -> exists ta tb, timestamp_to_string a default_format = Ret ta /\ timestamp_to_string b default_format = Ret tb /\ text_less ta tb.
Proof.
  intros A B L. eexists. eexists. split; [apply to_string_lemma; exact A|]. split; [apply to_string_lemma; exact B|]. apply put_less.
  - apply (gmtime_clock _ (quot_range _ A)).
  - apply (gmtime_clock _ (quot_range _ B)).
  - apply gmtime_mono. exact L.
Qed.

(** the text names the second that contains the time point *)
Lemma names_lemma x : 0 <= x -> in_clock x -> exists n, n * 1000000000 <= x < (n + 1) * 1000000000 /\ timestamp_to_string x default_format = timestamp_to_string (n * 1000000000) default_format.
Proof.
  intros P C. exists (to_time_t x). pose proof (quot_range _ C) as R. assert (X : in_clock (to_time_t x * 1000000000)) by (apply seconds_range; exact R). split.
  - unfold to_time_t in *. rewrite Z.quot_div_nonneg by lia. pose proof (Z.div_mod x 1000000000 ltac:(lia)). pose proof (Z.mod_pos_bound x 1000000000 ltac:(lia)). lia.
  - rewrite !to_string_lemma by assumption. rewrite whole_lemma. reflexivity.
Qed.
