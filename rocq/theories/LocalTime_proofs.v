From Coq Require Import ZArith Lia.
From Verif Require Import LocalTime_model LocalTime_spec Time_proofs.
Local Open Scope Z_scope.

Lemma wide_range t : -9223472036 <= t <= 9223472036 -> -223 <= t_year (gmtime_tm t) <= 362.
Proof.
  intros R. destruct (gmtime_lemma t) as [V E]. split.
  - destruct (Z_le_gt_dec (-223) (t_year (gmtime_tm t))) as [|G]; [assumption|]. exfalso.
    pose proof (timegm_mono (gmtime_tm t) {| t_sec := 0; t_min := 0; t_hour := 0; t_mday := 1; t_mon := 0; t_year := -223 |} V) as M. rewrite E in M.
    assert (X : t < timegm_Z {| t_sec := 0; t_min := 0; t_hour := 0; t_mday := 1; t_mon := 0; t_year := -223 |}) by (apply M; [closed|left; left; cbn [t_year]; lia]).
    match type of X with context [timegm_Z ?a] => let v := eval vm_compute in (timegm_Z a) in change (timegm_Z a) with v in X end. lia.
  - destruct (Z_le_gt_dec (t_year (gmtime_tm t)) 362) as [|G]; [assumption|]. exfalso.
    pose proof (timegm_mono {| t_sec := 59; t_min := 59; t_hour := 23; t_mday := 31; t_mon := 11; t_year := 362 |} (gmtime_tm t)) as M. rewrite E in M.
    assert (X : timegm_Z {| t_sec := 59; t_min := 59; t_hour := 23; t_mday := 31; t_mon := 11; t_year := 362 |} < t) by (apply M; [closed|exact V|left; left; cbn [t_year]; lia]).
    match type of X with context [timegm_Z ?a] => let v := eval vm_compute in (timegm_Z a) in change (timegm_Z a) with v in X end. lia.
Qed.
Lemma local_ok zone t : reasonable zone -> -9223372036 <= t <= 9223372036 -> localtime zone t = Some (localtime_tm zone t) /\ printable (localtime_tm zone t).
Proof.
  intros Z0 R. specialize (Z0 t). assert (W : -9223472036 <= t + zone t <= 9223472036) by lia. pose proof (wide_range _ W) as Y. unfold localtime, localtime_tm.
  rewrite is_int_small by lia. split; [reflexivity|]. split; [apply gmtime_lemma|lia].
Qed.
Lemma to_local_lemma zone x items : reasonable zone -> in_clock x -> local_to_string zone x items = Ret (put_time items (localtime_tm zone (to_time_t x))).
Proof. intros Z0 C. unfold local_to_string. destruct (local_ok zone _ Z0 (quot_range _ C)) as [-> _]. reflexivity. Qed.

Lemma same_local zone a b : localtime_tm zone a = localtime_tm zone b <-> a + zone a = b + zone b.
Proof.
  unfold localtime_tm. split; [|intros ->; reflexivity]. intro E. destruct (gmtime_lemma (a + zone a)) as [_ A], (gmtime_lemma (b + zone b)) as [_ B]. rewrite E in A. lia.
Qed.
Lemma from_ret t y : from_time_t t = Ret y -> y = t * 1000000000 /\ -9223372036 <= t <= 9223372036.
Proof.
  unfold from_time_t. destruct ((clock_min <=? t * 1000000000) && (t * 1000000000 <=? clock_max)) eqn:E; [|discriminate]. intros [= <-]. split; [reflexivity|].
  apply seconds_range. unfold in_clock. lia.
Qed.

(** the text read names a time with that text *)
Lemma text_lemma zone mktime items x t y : reasonable zone -> honest zone mktime -> complete items -> in_clock x ->
  local_to_string zone x items = Ret t -> string_to_local mktime t items = Ret y -> local_to_string zone y items = Ret t.
Proof.
  intros Z0 H CO C T R. rewrite to_local_lemma in T by assumption. injection T as <-. destruct (local_ok zone _ Z0 (quot_range _ C)) as [_ P].
  unfold string_to_local in R. rewrite get_time_lemma in R by assumption. destruct (Z.eqb_spec (mktime (localtime_tm zone (to_time_t x))) (-1)) as [|N]; [discriminate|].
  apply from_ret in R as [-> B]. rewrite to_local_lemma; [|exact Z0|apply seconds_range; exact B]. rewrite whole_lemma. rewrite H; [reflexivity|]. apply seconds_range. apply quot_range. exact C.
Qed.
Lemma once_lemma zone mktime items x : reasonable zone -> honest zone mktime -> complete items -> in_clock x -> once zone (to_time_t x) -> to_time_t x <> -1 ->
  exists t, local_to_string zone x items = Ret t /\ string_to_local mktime t items = Ret (to_time_t x * 1000000000).
Proof.
  intros Z0 H CO C O N. eexists. split; [apply to_local_lemma; assumption|]. destruct (local_ok zone _ Z0 (quot_range _ C)) as [_ P]. unfold string_to_local. rewrite get_time_lemma by assumption.
  assert (E : mktime (localtime_tm zone (to_time_t x)) = to_time_t x).
  { apply O. apply same_local. apply H. apply seconds_range. apply quot_range. exact C. }
  rewrite E. destruct (Z.eqb_spec (to_time_t x) (-1)); [contradiction|]. apply from_time_lemma. apply quot_range. exact C.
Qed.
Lemma fixed_once k n : once (fun _ => k) n.
Proof. intros m E. lia. Qed.
Lemma local_sorted_lemma zone a b : reasonable zone -> in_clock a -> in_clock b -> to_time_t a + zone (to_time_t a) < to_time_t b + zone (to_time_t b) ->
  exists ta tb, local_to_string zone a default_format = Ret ta /\ local_to_string zone b default_format = Ret tb /\ text_less ta tb.
Proof.
  intros Z0 A B L. eexists. eexists. split; [apply to_local_lemma; assumption|]. split; [apply to_local_lemma; assumption|]. apply put_less.
  - apply (local_ok zone _ Z0 (quot_range _ A)).
  - apply (local_ok zone _ Z0 (quot_range _ B)).
  - unfold localtime_tm. apply gmtime_mono. exact L.
Qed.
Lemma europe_reasonable : reasonable europe.
Proof. intro t. unfold europe. destruct (t <? 1729990800); lia. Qed.
