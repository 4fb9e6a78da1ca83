(** Vocabulary of C154: producers and consumers that can go no further. *)
From Coq Require Import NArith List.
From Verif Require Import Consumer_model.
Import ListNotations.

Section Spec.
Context {T : Type}.
(** a thread goes on with its call: no call begins, no time passes and nobody wakes up without a reason *)
Definition goes_on (l : clabel T) : Prop := (exists t pick, l = CRun t pick) \/ (exists t, l = CQueue t).
(** no thread can go on with its call *)
Definition at_rest (s : cstate T) : Prop := forall l, goes_on l -> cstep s l = None.
(** the thread is inside consume, or inside produce *)
Definition consuming (s : cstate T) (t : nat) : Prop :=
  exists g, nth_error (stages s) t = Some g /\ match g with SWait | SPop | SEmpty | SSwap | SEmpty2 | SFront | SDrop _ => True | _ => False end.
Definition producing (s : cstate T) (t : nat) : Prop := nth_error (stages s) t = Some SIncrement \/ exists x, nth_error (stages s) t = Some (SPush x).
(** it is inside another call, or asleep inside wait_all_consumed *)
Definition elsewhere (s : cstate T) (t : nat) : Prop := nth_error (stages s) t = Some SOther.
Definition awaits_all (s : cstate T) (t : nat) : Prop := exists w dl, nth_error (threads (handler s)) t = Some (WSleep w dl) /\ w_cv w = Thr.
(** executions in which enable and disable are called, but neither blocking_disable nor stop_and_continue *)
Definition simple (l : clabel T) : Prop := forall t k, l = CCall t (Switch k) -> k = Kenable \/ k = Kdisable.
Inductive simply (s0 : cstate T) : cstate T -> Prop :=
| simply_init : simply s0 s0
| simply_step s l s' : simply s0 s -> simple l -> cstep s l = Some s' -> simply s0 s'.
End Spec.
