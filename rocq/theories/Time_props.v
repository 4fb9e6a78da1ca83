(** C55, C65, C66, C67, C68: timestamps. *)
From Coq Require Import ZArith Lia.
From Verif Require Import Str Outcome Time_model Time_spec Time_proofs Time_read_proofs.
Local Open Scope Z_scope.

(** C55: every whole second that the clock can represent, but one second before 1970, is the same after it is
    written and read with any format that has all the fields *)
Theorem C55_round_trip_partial : forall items n, complete items -> in_clock (n * 1000000000) -> n <> -1 ->
  exists t, timestamp_to_string (n * 1000000000) items = Ret t /\ string_to_timestamp t items = Ret (n * 1000000000).
Proof. exact round_trip_whole. Qed.
Print Assumptions C55_round_trip_partial.
(** C55: and a time point within a second becomes a whole second *)
Theorem C55_seconds_partial : forall items x, complete items -> in_clock x -> to_time_t x <> -1 ->
  exists t, timestamp_to_string x items = Ret t /\ string_to_timestamp t items = Ret (to_time_t x * 1000000000).
Proof. exact round_trip_lemma. Qed.
Print Assumptions C55_seconds_partial.
Example C55_default_complete : complete default_format.
Proof. exact default_complete. Qed.
Example C55_round_trip_nonvacuous : timestamp_to_string (1709251199 * 1000000000) default_format = Ret (s "2024-02-29_23-59-59") /\
  string_to_timestamp (s "2024-02-29_23-59-59") default_format = Ret (1709251199 * 1000000000) /\ in_clock (1709251199 * 1000000000) /\
  timestamp_to_string clock_min default_format = Ret (s "1677-09-21_00-12-44") /\ timestamp_to_string clock_max default_format = Ret (s "2262-04-11_23-47-16").
Proof. repeat split; try (vm_compute; reflexivity); vm_compute; discriminate. Qed.

(** C55: the second before 1970 is written but cannot be read *)
Theorem C55_minus_one_refuted : forall items, complete items -> exists t, timestamp_to_string (-1 * 1000000000) items = Ret t /\ string_to_timestamp t items = Throw ValueNotAllowed.
Proof. exact minus_one_lemma. Qed.
Print Assumptions C55_minus_one_refuted.
Example C55_minus_one_text : timestamp_to_string (-1 * 1000000000) default_format = Ret (s "1969-12-31_23-59-59") /\ string_to_timestamp (s "1969-12-31_23-59-59") default_format = Throw ValueNotAllowed.
Proof. split; vm_compute; reflexivity. Qed.

(** C55: date_to_timestamp counts the seconds since 1970-01-01 of the calendar, for dates that the clock can represent *)
Theorem C55_calendar_partial : forall y m d h mi sec n, 0 <= y < 2147483648 -> second_number y m d h mi sec n -> in_clock (n * 1000000000) ->
  date_to_timestamp y m d h mi sec = Ret (n * 1000000000).
Proof. exact date_calendar_lemma. Qed.
Print Assumptions C55_calendar_partial.
(** the calendar gives each date one number and each number a date *)
Theorem C55_calendar_total : (forall n, exists y m d, day_number (y, m, d) n) /\ (forall y m d n n', day_number (y, m, d) n -> day_number (y, m, d) n' -> n = n').
Proof. exact calendar_lemma. Qed.
Print Assumptions C55_calendar_total.
Example C55_calendar_nonvacuous : second_number 1970 3 1 12 0 0 (59 * 86400 + 43200) /\ second_number 1969 12 31 23 59 59 (-1).
Proof.
  split; [exists 59|exists (-1)]; (split; [apply day_number_spec; split; [closed|vm_compute; reflexivity]|lia]).
Qed.
(** C55: other dates overflow *)
Theorem C55_overflow_refuted : forall y m d h mi sec n, 0 <= y < 2147483648 -> second_number y m d h mi sec n -> ~ in_clock (n * 1000000000) ->
  date_to_timestamp y m d h mi sec = UB.
Proof. exact date_overflow_lemma. Qed.
Print Assumptions C55_overflow_refuted.
Example C55_overflow_nonvacuous : exists n, second_number 2263 1 1 0 0 0 n /\ ~ in_clock (n * 1000000000) /\ date_to_timestamp 2263 1 1 0 0 0 = UB /\
  string_to_timestamp (s "2263-01-01_00-00-00") default_format = UB /\ date_to_timestamp 9999 12 31 0 0 0 = UB.
Proof.
  exists (106752 * 86400 + 264 * 86400). split; [exists (106752 + 264); split; [apply day_number_spec; split; [closed|vm_compute; reflexivity]|lia]|]. split; [unfold in_clock, clock_max; lia|].
  repeat split; vm_compute; reflexivity.
Qed.

(** C65: the texts of timestamps are in the order of time *)
Theorem C65_sorted : forall a b, in_clock a -> in_clock b -> to_time_t a < to_time_t b ->
  exists ta tb, timestamp_to_string a default_format = Ret ta /\ timestamp_to_string b default_format = Ret tb /\ text_less ta tb.
Proof. exact sorted_lemma. Qed.
Print Assumptions C65_sorted.
Example C65_sorted_nonvacuous : to_time_t (1709251199 * 1000000000) < to_time_t (1709251200 * 1000000000) /\ timestamp_to_string (1709251200 * 1000000000) default_format = Ret (s "2024-03-01_00-00-00").
Proof. split; vm_compute; reflexivity. Qed.

(** C66: time_to_timestamp gives that time of the current day *)
Theorem C66_today_partial : forall now h mi sec, in_clock now -> 0 <= h < 24 -> 0 <= mi < 60 -> 0 <= sec < 60 ->
  let n := to_time_t now / 86400 * 86400 + h * 3600 + mi * 60 + sec in in_clock (n * 1000000000) -> time_to_timestamp now h mi sec = Ret (n * 1000000000).
Proof. exact time_lemma. Qed.
Print Assumptions C66_today_partial.
Example C66_today_nonvacuous : time_to_timestamp (1709251199 * 1000000000 + 7) 1 2 3 = Ret (1709168523 * 1000000000) /\ timestamp_to_string (1709168523 * 1000000000) default_format = Ret (s "2024-02-29_01-02-03").
Proof. split; vm_compute; reflexivity. Qed.
(** C66: on the first and on the last day of the clock, a time of the day before its beginning or after its end is undefined behaviour *)
Theorem C66_today_refuted : in_clock clock_max /\ time_to_timestamp clock_max 23 59 59 = UB /\ in_clock clock_min /\ time_to_timestamp clock_min 0 0 0 = UB.
Proof. split; [split; vm_compute; discriminate|]. split; [vm_compute; reflexivity|]. split; [split; vm_compute; discriminate|vm_compute; reflexivity]. Qed.
Print Assumptions C66_today_refuted.

(** C67: the text of a timestamp from 1970 on is that of the second it is in *)
Theorem C67_second_partial : forall x, 0 <= x -> in_clock x ->
  exists n, n * 1000000000 <= x < (n + 1) * 1000000000 /\ timestamp_to_string x default_format = timestamp_to_string (n * 1000000000) default_format.
Proof. exact names_lemma. Qed.
Print Assumptions C67_second_partial.
Example C67_second_nonvacuous : timestamp_to_string 999999999 default_format = Ret (s "1970-01-01_00-00-00") /\ timestamp_to_string 1000000000 default_format = Ret (s "1970-01-01_00-00-01").
Proof. split; vm_compute; reflexivity. Qed.
(** C67: before 1970, a timestamp within a second has the text of the next second *)
Theorem C67_second_refuted : in_clock (-1) /\ timestamp_to_string (-1) default_format = Ret (s "1970-01-01_00-00-00") /\ timestamp_to_string (-1 * 1000000000) default_format = Ret (s "1969-12-31_23-59-59").
Proof. repeat split; vm_compute; try reflexivity; discriminate. Qed.
Print Assumptions C67_second_refuted.

(** C68: days that do not exist are accepted, as well as anything after the date *)
Theorem C68_no_date_refuted : (forall n, ~ day_number (2023, 2, 31) n) /\ string_to_timestamp (s "2023-02-31_00-00-00") default_format = string_to_timestamp (s "2023-03-03_00-00-00") default_format /\
  string_to_timestamp (s "2023-03-03_00-00-00x") default_format = string_to_timestamp (s "2023-03-03_00-00-00") default_format /\ string_to_timestamp (s "2023-03-03_00-00-00") default_format = Ret (1677801600 * 1000000000).
Proof.
  split; [|repeat split; vm_compute; reflexivity]. intros n H. apply day_number_spec in H. destruct H as [[_ [_ H]] _]. vm_compute in H. apply H. reflexivity.
Qed.
Print Assumptions C68_no_date_refuted.

(** C68: years of two digits are neither rejected nor read: the number of nanoseconds overflows *)
Theorem C68_short_year_refuted : string_to_timestamp (s "23-03-03_00-00-00") default_format = UB.
Proof. vm_compute. reflexivity. Qed.
Print Assumptions C68_short_year_refuted.

(** C68: what is not rejected begins with the numbers of a date, each in its range.  What is missing: the year may
    have two digits, the day may not exist in its month, and anything may follow. *)
Theorem C68_rejected_partial : forall t, (forall e, string_to_timestamp t default_format <> Throw e) ->
  exists year y m d h mi sec, begins_with_date t year y m d h mi sec /\ (length year = 4%nat \/ length year = 2%nat).
Proof. exact accepted_lemma. Qed.
Print Assumptions C68_rejected_partial.
(** C68: and what is read is the date written there, if it exists *)
Theorem C68_read_partial : forall t x, string_to_timestamp t default_format = Ret x ->
  exists year y m d h mi sec, begins_with_date t year y m d h mi sec /\ length year = 4%nat /\
    forall n, second_number y m d h mi sec n -> x = n * 1000000000.
Proof. exact read_lemma. Qed.
Print Assumptions C68_read_partial.
Example C68_partial_nonvacuous :
  string_to_timestamp (s " 2023-03-03_00-00-00 at night") default_format = Ret (1677801600 * 1000000000) /\
  List.map (fun t => match string_to_timestamp (s t) default_format with Throw _ => true | _ => false end)
    ["2023-13-03_00-00-00"%string; "2023-3-03_00-00-00"%string; "2023-03-32_00-00-00"%string; "2023-03-03 00-00-00"%string; "2023-03-03_24-00-00"%string; "today"%string; ""%string] =
    [true; true; true; true; true; true; true].
Proof. split; vm_compute; reflexivity. Qed.
