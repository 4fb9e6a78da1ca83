(** Property C22. *)
From Coq Require Import ZArith List Bool.
From Verif Require Import Timer_model Timer_spec Timer_proofs.
Import ListNotations.
Local Open Scope Z_scope.

(** The elapsed time is the number of instants since the last reset at which the timer was
    playing (exact arithmetic, clock that does not go backwards, [newest] first). *)
Theorem C22_time_playing : forall born b newest now, clock_ok born newest now ->
  ptimer_elapsed Z Z.add (fun a b => b - a) now
    (ptimer_run Z 0 Z.add (fun a b => b - a) born b (rev newest)) =
  instants (last_reset born newest) now (plays_at b newest).
Proof. exact timer_lemma. Qed.
Print Assumptions C22_time_playing.

Definition sample_calls : list (Z * timer_call) :=
  [(40, Play); (33, Pause); (30, Reset); (20, Play); (20, Pause); (12, Play); (5, Pause)].
Example C22_time_playing_nonvacuous :
  clock_ok 0 sample_calls 100 /\ instants (last_reset 0 sample_calls) 100 (plays_at true sample_calls) = 63.
Proof. split; [cbn; repeat split; intro; discriminate|reflexivity]. Qed.

Theorem C22_playing : forall born b newest now, clock_ok born newest now ->
  playing Z (ptimer_run Z 0 Z.add (fun a b => b - a) born b (rev newest)) = plays_at b newest now.
Proof. exact timer_playing_lemma. Qed.
Print Assumptions C22_playing.

(** With any arithmetic, rounding included: the sum, in order, of one measure per interval
    spent playing since the last reset. *)
Theorem C22_sum_of_intervals : forall (D : Type) (zero : D) (add : D -> D -> D) (measure : Z -> Z -> D)
    born play calls now,
  ptimer_elapsed D add measure now (ptimer_run D zero add measure born play calls) =
  total D zero add measure (intervals (if play then Some born else None) calls [] now).
Proof. exact intervals_lemma. Qed.
Print Assumptions C22_sum_of_intervals.

Example C22_sum_of_intervals_nonvacuous :
  intervals (Some 0) (rev sample_calls) [] 100 = [(30, 33); (40, 100)] /\
  intervals None [(3, Play); (5, Pause); (9, Play)] [] 12 = [(3, 5); (9, 12)].
Proof. split; reflexivity. Qed.

(** The library's clock may be adjusted backwards: times can then be negative. *)
Theorem C22_clock_refuted : exists calls now,
  ptimer_elapsed Z Z.add (fun a b => b - a) now
    (ptimer_run Z 0 Z.add (fun a b => b - a) 10 true calls) < 0.
Proof. exact backwards_lemma. Qed.
Print Assumptions C22_clock_refuted.

(** The millisecond count truncates, for less than 2^32 ms (49 days); *)
Theorem C22_milliseconds : forall ns, 0 <= ns < 2 ^ 32 * 1000000 -> elapsed_ms ns = Some (ns / 1000000).
Proof. exact elapsed_ms_lemma. Qed.
Print Assumptions C22_milliseconds.

Example C22_milliseconds_nonvacuous : elapsed_ms 1999999 = Some 1.
Proof. reflexivity. Qed.

(** from there on it is undefined. *)
Theorem C22_milliseconds_refuted : exists ns, 0 <= ns /\ elapsed_ms ns = None.
Proof. exact elapsed_ms_long. Qed.
Print Assumptions C22_milliseconds_refuted.
