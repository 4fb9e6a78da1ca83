(** Model of cpp_utils/src/cpp/time/Timer.cpp and PausableTimer.cpp.  [D] is the type of
    measured times ([double] milliseconds in the code) with its zero and its addition;
    [measure a b] is the value of [duration<double, milli>(b - a).count()]
    (Timer.cpp:37) for two readings of the clock. *)
From Coq Require Export ZArith List Bool.
Export ListNotations.

Section Timer.
Variables (D : Type) (zero : D) (add : D -> D -> D) (measure : Z -> Z -> D).

(** start_time_ of Timer.hpp; playing_ and stored_time_elapsed_ of PausableTimer.hpp *)
Record ptimer := { start_time : Z; playing : bool; stored : D }.

(** Timer.cpp:25-28 and PausableTimer.cpp:25-30 *)
Definition ptimer_new (now : Z) (play : bool) : ptimer := {| start_time := now; playing := play; stored := zero |}.

(** PausableTimer.cpp:32-42 *)
Definition ptimer_play (now : Z) (t : ptimer) : ptimer :=
  if playing t then t else {| start_time := now; playing := true; stored := stored t |}.

(** PausableTimer.cpp:44-55; [Timer::elapsed] and [reset_] read the clock one after the
    other: both readings are [now] here (simplification) *)
Definition ptimer_pause (now : Z) (t : ptimer) : ptimer :=
  if playing t
  then {| start_time := now; playing := false; stored := add (stored t) (measure (start_time t) now) |}
  else t.

(** PausableTimer.cpp:58-70 *)
Definition ptimer_elapsed (now : Z) (t : ptimer) : D :=
  if playing t then add (stored t) (measure (start_time t) now) else stored t.

(** PausableTimer.cpp:72-76 *)
Definition ptimer_reset (now : Z) (t : ptimer) : ptimer :=
  {| start_time := now; playing := playing t; stored := zero |}.

Inductive timer_call := Play | Pause | Reset.

Definition ptimer_call (t : ptimer) (c : Z * timer_call) : ptimer :=
  match snd c with
  | Play => ptimer_play (fst c) t
  | Pause => ptimer_pause (fst c) t
  | Reset => ptimer_reset (fst c) t
  end.

(** the calls made on a timer created at [born], each with the clock reading *)
Definition ptimer_run (born : Z) (play : bool) (calls : list (Z * timer_call)) : ptimer :=
  fold_left ptimer_call calls (ptimer_new born play).

End Timer.

(** Timer.cpp:40-43: [static_cast<Duration_ms>] of a [double], an [uint32_t]; [None]: the
    value does not fit, the conversion is undefined.  [ns]: measured nanoseconds. *)
Definition elapsed_ms (ns : Z) : option Z :=
  if ((0 <=? Z.quot ns 1000000) && (Z.quot ns 1000000 <? 2 ^ 32))%Z then Some (Z.quot ns 1000000) else None.
