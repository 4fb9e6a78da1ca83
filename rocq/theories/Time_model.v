(** Timestamps, cpp_utils/src/cpp/time/time_utils.cpp, and what it uses of the C and C++
    libraries of Linux (glibc, libstdc++): time points of the system clock are a number of
    nanoseconds in 64 bits, [time_t] is a number of seconds in 64 bits.

    Not modelled here: local time (the [local_time] arguments are false; LocalTime_model.v has it), Windows (normalize,
    time_utils.cpp:176-198, is the identity elsewhere), conversions of formats other than
    %Y, %m, %d, %H, %M, %S and %%. *)
From Coq Require Import ZArith Lia.
From Verif Require Import Str Outcome Math_model.
Local Open Scope Z_scope.

(** ** The C library *)
(** struct tm; tm_wday and tm_yday are not read by timegm *)
Record tm := { t_sec : Z; t_min : Z; t_hour : Z; t_mday : Z; t_mon : Z; t_year : Z }.
(** [std::tm tm{}] *)
Definition tm0 : tm := {| t_sec := 0; t_min := 0; t_hour := 0; t_mday := 0; t_mon := 0; t_year := 0 |}.

Definition leap (y : Z) : bool := (y mod 4 =? 0) && (negb (y mod 100 =? 0) || (y mod 400 =? 0)).
(** leap years up to [y] *)
Definition leaps (y : Z) : Z := y / 4 - y / 100 + y / 400.
(** days of the year before month [m], from 0 *)
Definition before_month (y m : Z) : Z :=
  nth (Z.to_nat m) [0; 31; 59; 90; 120; 151; 181; 212; 243; 273; 304; 334] 0 + (if leap y && (2 <=? m) then 1 else 0).
(** days since 1970-01-01, months from 0, days from 1 *)
Definition days_of (y m d : Z) : Z := 365 * (y - 1970) + (leaps (y - 1) - leaps 1969) + before_month y m + (d - 1).

Definition int_min : Z := -2147483648.
Definition int_max : Z := 2147483647.
Definition is_int (z : Z) : bool := (int_min <=? z) && (z <=? int_max).

(** timegm: any field may be out of its range *)
Definition timegm_Z (x : tm) : Z :=
  days_of (t_year x + 1900 + t_mon x / 12) (t_mon x mod 12) (t_mday x) * 86400 + t_hour x * 3600 + t_min x * 60 + t_sec x.

(** gmtime: the date of a number of days; years of 365 and 366 days from March of a year that
    is a multiple of 400 *)
Definition date_of (days : Z) : Z * Z * Z :=
  let z := days + 719468 in
  let era := z / 146097 in
  let doe := z mod 146097 in
  let yoe := (doe - doe / 1460 + doe / 36524 - doe / 146096) / 365 in
  let doy := doe - (365 * yoe + yoe / 4 - yoe / 100) in
  let mp := (5 * doy + 2) / 153 in
  let d := doy - (153 * mp + 2) / 5 + 1 in
  let m := if mp <? 10 then mp + 2 else mp - 10 in
  (yoe + era * 400 + (if m <=? 1 then 1 else 0), m, d).
Definition gmtime_tm (t : Z) : tm :=
  let '(y, m, d) := date_of (t / 86400) in
  let r := t mod 86400 in
  {| t_sec := r mod 60; t_min := r / 60 mod 60; t_hour := r / 3600; t_mday := d; t_mon := m; t_year := y - 1900 |}.
(** null if the year is not an int *)
Definition gmtime (t : Z) : option tm := let x := gmtime_tm t in if is_int (t_year x) then Some x else None.
(** -1 if the year is not an int *)
Definition timegm (x : tm) : Z := let t := timegm_Z x in if is_int (t_year (gmtime_tm t)) then t else -1.

(** ** The C++ library *)
(** formats *)
Inductive field := Year | Month | Day | Hour | Minute | Second.
Inductive item := Lit (c : ascii) | Fld (f : field).
Fixpoint format_of (t : str) : option (list item) :=
  match t with
  | [] => Some []
  | "%"%char :: c :: t' =>
      match (if Ascii.eqb c "Y" then Some (Fld Year) else if Ascii.eqb c "m" then Some (Fld Month) else if Ascii.eqb c "d" then Some (Fld Day)
             else if Ascii.eqb c "H" then Some (Fld Hour) else if Ascii.eqb c "M" then Some (Fld Minute) else if Ascii.eqb c "S" then Some (Fld Second)
             else if Ascii.eqb c "%" then Some (Lit "%"%char) else None), format_of t' with
      | Some i, Some r => Some (i :: r)
      | _, _ => None
      end
  | c :: t' => match format_of t' with Some r => Some (Lit c :: r) | None => None end
  end.

Definition chr (d : Z) : ascii := digit (Z.to_N d).
Definition two (z : Z) : str := [chr (z / 10); chr (z mod 10)].

(** std::put_time, that is strftime.  Years are not padded. *)
Definition put_field (f : field) (x : tm) : str :=
  match f with
  | Year => dec_Z (t_year x + 1900)
  | Month => two (t_mon x + 1)
  | Day => two (t_mday x)
  | Hour => two (t_hour x)
  | Minute => two (t_min x)
  | Second => two (t_sec x)
  end.
Definition put_item (x : tm) (i : item) : str := match i with Lit c => [c] | Fld f => put_field f x end.
Definition put_time (items : list item) (x : tm) : str := concat (List.map (put_item x) items).

(** std::time_get::_M_extract_num: [n] digits at most, stopping at the first one that takes the
    number out of its range *)
Definition digit_of (c : ascii) : option Z := let n := Z.of_N (N_of_ascii c) in if (48 <=? n) && (n <=? 57) then Some (n - 48) else None.
Fixpoint extract_loop (n : nat) (mult value lo hi : Z) (t : str) : nat * Z * str :=
  match n, t with
  | S n', c :: t' =>
      match digit_of c with
      | Some d =>
          let value' := value * 10 + d in
          let v := value' * mult in
          if (hi <? v) || (v + mult <? lo + 1) then (n, value', t) else extract_loop n' (mult / 10) value' lo hi t'
      | None => (n, value, t)
      end
  | _, _ => (n, value, t)
  end.
Definition extract_num (len : nat) (lo hi : Z) (t : str) : option (Z * str) :=
  let '(missing, value, rest) := extract_loop len (if Nat.eqb len 2 then 10 else if Nat.eqb len 4 then 1000 else 1) 0 lo hi t in
  if Nat.eqb missing 0 then Some (value, rest)
  else if Nat.eqb len 4 && Nat.eqb missing 2 then Some (value - 100, rest)
  else None.
Definition get_field (f : field) (x : tm) (t : str) : option (tm * str) :=
  match f with
  | Year => match extract_num 4 0 9999 t with Some (v, r) => Some ({| t_sec := t_sec x; t_min := t_min x; t_hour := t_hour x; t_mday := t_mday x; t_mon := t_mon x; t_year := v - 1900 |}, r) | None => None end
  | Month => match extract_num 2 1 12 t with Some (v, r) => Some ({| t_sec := t_sec x; t_min := t_min x; t_hour := t_hour x; t_mday := t_mday x; t_mon := v - 1; t_year := t_year x |}, r) | None => None end
  | Day => match extract_num 2 1 31 t with Some (v, r) => Some ({| t_sec := t_sec x; t_min := t_min x; t_hour := t_hour x; t_mday := v; t_mon := t_mon x; t_year := t_year x |}, r) | None => None end
  | Hour => match extract_num 2 0 23 t with Some (v, r) => Some ({| t_sec := t_sec x; t_min := t_min x; t_hour := v; t_mday := t_mday x; t_mon := t_mon x; t_year := t_year x |}, r) | None => None end
  | Minute => match extract_num 2 0 59 t with Some (v, r) => Some ({| t_sec := t_sec x; t_min := v; t_hour := t_hour x; t_mday := t_mday x; t_mon := t_mon x; t_year := t_year x |}, r) | None => None end
  | Second => match extract_num 2 0 60 t with Some (v, r) => Some ({| t_sec := v; t_min := t_min x; t_hour := t_hour x; t_mday := t_mday x; t_mon := t_mon x; t_year := t_year x |}, r) | None => None end
  end.

Definition is_space (c : ascii) : bool := let n := N_of_ascii c in ((9 <=? n) && (n <=? 13) || (n =? 32))%N.
Fixpoint skip_spaces (t : str) : str := match t with c :: t' => if is_space c then skip_spaces t' else t | [] => [] end.
Definition lower (c : ascii) : ascii := let n := N_of_ascii c in if ((65 <=? n) && (n <=? 90))%N then ascii_of_N (n + 32) else c.
(** std::get_time: letters of the format match without regard to case, spaces match any number of
    spaces; what follows is not looked at *)
Fixpoint get_items (items : list item) (x : tm) (t : str) : option tm :=
  match items with
  | [] => Some x
  | Lit c :: items' =>
      match t with
      | [] => None
      | d :: t' =>
          if is_space c then get_items items' x (skip_spaces t)
          else if Ascii.eqb (lower c) (lower d) then get_items items' x t' else None
      end
  | Fld f :: items' => match t with [] => None | _ => match get_field f x t with Some (x', t') => get_items items' x' t' | None => None end end
  end.
(** spaces before the text are skipped; an empty text is an error *)
Definition get_time (items : list item) (t : str) : option tm := match skip_spaces t with [] => None | t' => get_items items tm0 t' end.

Definition clock_min : Z := -9223372036854775808.
Definition clock_max : Z := 9223372036854775807.
(** system_clock::to_time_t: the division of C++ *)
Definition to_time_t (x : Z) : Z := Z.quot x 1000000000.
(** system_clock::from_time_t: a signed multiplication *)
Definition from_time_t (t : Z) : outcome Z := let x := t * 1000000000 in if (clock_min <=? x) && (x <=? clock_max) then Ret x else UB.

(** ** time_utils.cpp *)
(** conversions of unsigned int to int; the subtractions are signed *)
Definition int_sub (a b : Z) : outcome Z := if is_int (a - b) then Ret (a - b) else UB.

(** date_to_timestamp, time_utils.cpp:53-71; the arguments are unsigned ints *)
Definition date_to_timestamp (year month day hour minute second : Z) : outcome Z :=
  obind (int_sub (to_int month) 1) (fun mon =>
  obind (int_sub (to_int year) 1900) (fun y =>
  from_time_t (timegm {| t_sec := to_int second; t_min := to_int minute; t_hour := to_int hour; t_mday := to_int day; t_mon := mon; t_year := y |}))).

(** time_to_timestamp, time_utils.cpp:73-89, called at [now]; *gmtime of null is undefined *)
Definition time_to_timestamp (now hour minute second : Z) : outcome Z :=
  match gmtime (to_time_t now) with
  | None => UB
  | Some x => from_time_t (timegm {| t_sec := to_int second; t_min := to_int minute; t_hour := to_int hour; t_mday := t_mday x; t_mon := t_mon x; t_year := t_year x |})
  end.

(** timestamp_to_string, time_utils.cpp:91-119 *)
Definition timestamp_to_string (timestamp : Z) (items : list item) : outcome str :=
  match gmtime (to_time_t timestamp) with
  | Some x => Ret (put_time items x)
  | None => Throw PreconditionNotMet
  end.

(** string_to_timestamp, time_utils.cpp:121-162 *)
Definition string_to_timestamp (t : str) (items : list item) : outcome Z :=
  match get_time items t with
  | None => Throw PreconditionNotMet
  | Some x => let utc := timegm x in if utc =? -1 then Throw ValueNotAllowed else from_time_t utc
  end.

(** the default format, time_utils.hpp:78 and 95 *)
Definition default_format : list item :=
  match format_of (s "%Y-%m-%d_%H-%M-%S") with Some l => l | None => [] end.
