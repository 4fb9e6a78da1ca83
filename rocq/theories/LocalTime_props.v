(** C144: timestamps in the local time zone. *)
From Coq Require Import ZArith Lia.
From Verif Require Import LocalTime_model LocalTime_spec LocalTime_proofs Time_proofs.
Local Open Scope Z_scope.

(** what is read from the text of a timestamp has the same text *)
Theorem C144_text : forall zone mktime items x t y, reasonable zone -> honest zone mktime -> complete items -> in_clock x ->
  local_to_string zone x items = Ret t -> string_to_local mktime t items = Ret y -> local_to_string zone y items = Ret t.
Proof. exact text_lemma. Qed.
Print Assumptions C144_text.

(** a timestamp survives, but for fractions of a second, if the clocks of the zone show its time once, and it is not one second before 1970 in UTC *)
Theorem C144_partial : forall zone mktime items x, reasonable zone -> honest zone mktime -> complete items -> in_clock x -> once zone (to_time_t x) -> to_time_t x <> -1 ->
  exists t, local_to_string zone x items = Ret t /\ string_to_local mktime t items = Ret (to_time_t x * 1000000000).
Proof. exact once_lemma. Qed.
Print Assumptions C144_partial.

(** in a zone without changes this is always so *)
Theorem C144_fixed_zone : forall k n, once (fun _ => k) n.
Proof. exact fixed_once. Qed.
Print Assumptions C144_fixed_zone.
Example C144_nonvacuous : reasonable (fun _ => 3600) /\ honest (fun _ => 3600) (fun x => timegm_Z x - 3600) /\ complete default_format /\
  local_to_string (fun _ => 3600) 1700000000123456789 default_format = Ret (s "2023-11-14_23-13-20") /\
  string_to_local (fun x => timegm_Z x - 3600) (s "2023-11-14_23-13-20") default_format = Ret 1700000000000000000.
Proof.
  split; [intro t; lia|]. split; [|split; [exact default_complete|split; vm_compute; reflexivity]].
  intros t _. unfold localtime_tm. destruct (gmtime_lemma (t + 3600)) as [_ E]. rewrite E. f_equal. lia.
Qed.
Example C144_once_nonvacuous : once europe 1720000000 /\ in_clock (1720000000 * 1000000000).
Proof. split; [intros m; unfold europe; change (1720000000 <? 1729990800) with true; destruct (Z.ltb_spec m 1729990800); lia|]. apply seconds_range. lia. Qed.

(** the texts sort in time order if the clocks of the zone do *)
Theorem C144_sorted_partial : forall zone a b, reasonable zone -> in_clock a -> in_clock b -> to_time_t a + zone (to_time_t a) < to_time_t b + zone (to_time_t b) ->
  exists ta tb, local_to_string zone a default_format = Ret ta /\ local_to_string zone b default_format = Ret tb /\ text_less ta tb.
Proof. exact local_sorted_lemma. Qed.
Print Assumptions C144_sorted_partial.

(** whatever mktime does, a time that the clocks show twice does not survive *)
Theorem C144_repeated_refuted : forall mktime, ~ forall n, in_clock (n * 1000000000) -> n <> -1 ->
  exists t, local_to_string europe (n * 1000000000) default_format = Ret t /\ string_to_local mktime t default_format = Ret (n * 1000000000).
Proof.
  intros mktime H. destruct (H 1729988000 ltac:(apply seconds_range; lia) ltac:(lia)) as (t1 & A1 & B1). destruct (H 1729991600 ltac:(apply seconds_range; lia) ltac:(lia)) as (t2 & A2 & B2).
  assert (E : t1 = t2).
  { assert (F : local_to_string europe (1729988000 * 1000000000) default_format = local_to_string europe (1729991600 * 1000000000) default_format) by (vm_compute; reflexivity). congruence. }
  rewrite E, B2 in B1. discriminate B1.
Qed.
Print Assumptions C144_repeated_refuted.

(** nor do the texts sort in time order *)
Theorem C144_sorted_refuted : exists ta tb, local_to_string europe (1729990000 * 1000000000) default_format = Ret ta /\ local_to_string europe (1729991000 * 1000000000) default_format = Ret tb /\ text_less tb ta.
Proof.
  destruct (local_sorted_lemma europe (1729991000 * 1000000000) (1729990000 * 1000000000) europe_reasonable) as (tb & ta & B & A & L).
  - apply seconds_range. lia.
  - apply seconds_range. lia.
  - rewrite !whole_lemma. vm_compute. reflexivity.
  - exists ta, tb. auto.
Qed.
Print Assumptions C144_sorted_refuted.

(** the last second of 1969 in UTC is taken for a failure, whatever the zone *)
Theorem C144_minus_one_refuted : forall zone mktime items, reasonable zone -> honest zone mktime -> once zone (-1) -> complete items ->
  exists t, local_to_string zone (-1 * 1000000000) items = Ret t /\ string_to_local mktime t items = Throw ValueNotAllowed.
Proof.
  intros zone mktime items Z0 H O CO. assert (C : in_clock (-1 * 1000000000)) by (apply seconds_range; lia). eexists. split; [apply to_local_lemma; assumption|].
  destruct (local_ok zone _ Z0 (quot_range _ C)) as [_ P]. unfold string_to_local. rewrite get_time_lemma by assumption. rewrite whole_lemma.
  assert (E : mktime (localtime_tm zone (-1)) = -1) by (apply O; apply same_local; apply H; exact C). rewrite E. reflexivity.
Qed.
Print Assumptions C144_minus_one_refuted.
