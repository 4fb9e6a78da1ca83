(** The calendar, and what is expected of timestamps. *)
From Coq Require Import ZArith.
From Verif Require Export Str Time_model.
Local Open Scope Z_scope.

(** ** Dates: year, month 1-12, day 1-31 *)
Definition leap_year (y : Z) : Prop := (4 | y) /\ (~ (100 | y) \/ (400 | y)).
Inductive month_length (y : Z) : Z -> Z -> Prop :=
| long m : In m [1; 3; 5; 7; 8; 10; 12] -> month_length y m 31
| short m : In m [4; 6; 9; 11] -> month_length y m 30
| february_leap : leap_year y -> month_length y 2 29
| february : ~ leap_year y -> month_length y 2 28.
(** [next_day a b]: b is the day after a *)
Inductive next_day : Z * Z * Z -> Z * Z * Z -> Prop :=
| same_month y m d n : month_length y m n -> 1 <= d < n -> next_day (y, m, d) (y, m, d + 1)
| new_month y m n : month_length y m n -> m < 12 -> next_day (y, m, n) (y, m + 1, 1)
| new_year y : next_day (y, 12, 31) (y + 1, 1, 1).
(** days are counted from 1970-01-01 *)
Inductive day_number : Z * Z * Z -> Z -> Prop :=
| epoch : day_number (1970, 1, 1) 0
| after a b n : day_number a n -> next_day a b -> day_number b (n + 1)
| earlier a b n : day_number b n -> next_day a b -> day_number a (n - 1).

(** seconds since the epoch of a date and a time of the day *)
Definition second_number (y m d h mi sec n : Z) : Prop :=
  exists days, day_number (y, m, d) days /\ 0 <= h < 24 /\ 0 <= mi < 60 /\ 0 <= sec < 60 /\ n = days * 86400 + h * 3600 + mi * 60 + sec.

(** a time point that the clock can represent *)
Definition in_clock (x : Z) : Prop := clock_min <= x <= clock_max.

(** formats with all the fields, and characters that are no spaces *)
Definition complete (items : list item) : Prop :=
  (forall f, In (Fld f) items) /\ forall c, In (Lit c) items -> is_space c = false.

(** the order of texts *)
Inductive text_less : str -> str -> Prop :=
| less_end c t : text_less [] (c :: t)
| less_head c d a b : (N_of_ascii c < N_of_ascii d)%N -> text_less (c :: a) (d :: b)
| less_tail c a b : text_less a b -> text_less (c :: a) (c :: b).

(** ** Numbers written with a fixed number of digits *)
Definition digit_value (c : ascii) (d : Z) : Prop := 0 <= d < 10 /\ Z.of_N (N_of_ascii c) = 48 + d.
Inductive written : str -> Z -> Prop :=
| no_digit : written [] 0
| more_digits t v c d : written t v -> digit_value c d -> written (t ++ [c]) (10 * v + d).
Definition digits_between (n : nat) (lo hi : Z) (t : str) (v : Z) : Prop := length t = n /\ written t v /\ lo <= v <= hi.

(** a text that begins, after spaces, with a date in the default format; [year] are the digits of
    the year, of which the days need not exist *)
Definition begins_with_date (t year : str) (y m d h mi sec : Z) : Prop :=
  exists spaces tm td th tmi ts rest,
    t = spaces ++ year ++ s "-" ++ tm ++ s "-" ++ td ++ s "_" ++ th ++ s "-" ++ tmi ++ s "-" ++ ts ++ rest /\
    (forall c, In c spaces -> In c (s " " ++ List.map ascii_of_nat [9; 10; 11; 12; 13]%nat)) /\
    written year y /\ digits_between 2 1 12 tm m /\ digits_between 2 1 31 td d /\ digits_between 2 0 23 th h /\
    digits_between 2 0 59 tmi mi /\ digits_between 2 0 60 ts sec.
