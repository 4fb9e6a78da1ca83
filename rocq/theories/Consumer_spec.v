(** Vocabulary for executions of producers and consumers. *)
From Coq Require Import NArith List.
From Verif Require Import Consumer_model.
Import ListNotations.

Section Spec.
Context {T : Type}.

(** every execution *)
Inductive creachable (s0 : cstate T) : cstate T -> Prop :=
| creach_init : creachable s0 s0
| creach_step s l s' : creachable s0 s -> cstep s l = Some s' -> creachable s0 s'.

(** every execution in which fewer than 2^32 elements are in the queue at any time *)
Definition in_queue (s : cstate T) : nat := length (foreground s) + length (background s).
Inductive bounded (s0 : cstate T) : cstate T -> Prop :=
| bounded_init : bounded s0 s0
| bounded_step s l s' : bounded s0 s -> cstep s l = Some s' -> (N.of_nat (in_queue s') < 2 ^ 32)%N -> bounded s0 s'.

(** the elements returned by consume, in the order in which they were taken from the queue *)
Definition values (rs : list (result T)) : list T :=
  fold_left (fun l r => match r with RValue _ x => x :: l | _ => l end) rs [].
Definition consumed (s : cstate T) : list T := values (results s).

Definition prefix (l l' : list T) : Prop := exists rest, l' = l ++ rest.

(** nobody is inside a call *)
Definition quiet (s : cstate T) : Prop := forall t g, nth_error (stages s) t = Some g -> g = SIdle.
End Spec.
