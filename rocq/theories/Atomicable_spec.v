(** Specification of C140. *)
From Verif Require Import Atomicable_model.

Section Spec.
Variables (T M R : Type) (method : M -> T -> T * R) (const : M -> bool).

(** what a program does and returns if nobody interrupts it *)
Inductive alone : program M R -> T -> T -> R -> Prop :=
| al_finish r x : alone (Finish r) x x r
| al_then m k x x1 r1 x' r : method m x = (x1, r1) -> alone (k r1) x1 x' r -> alone (Then m k) x x' r.
Definition at_once (x : T) (u : use M R) (x' : T) (r : R) : Prop := alone (body u) x x' r.

(** only const methods are called *)
Inductive read_only : program M R -> Prop :=
| ro_finish r : read_only (Finish r)
| ro_then m k : const m = true -> (forall r, read_only (k r)) -> read_only (Then m k).

(** the use for which the class is made: with a guard, and with a shared one to read only *)
Definition guarded (u : use M R) : Prop :=
  match with_guard u with Unique => True | Shared => read_only (body u) | NoGuard => False end.
Inductive areachable (ok : use M R -> Prop) (x : T) (n : nat) : astate T M R -> Prop :=
| ar_init : areachable ok x n (ainit x n)
| ar_call s t u s' : areachable ok x n s -> ok u -> astep method const s (ACall t u) = Some s' -> areachable ok x n s'
| ar_run s t s' : areachable ok x n s -> astep method const s (ARun t) = Some s' -> areachable ok x n s'.
Definition anyhow (u : use M R) : Prop := True.
End Spec.
Arguments alone {T M R}. Arguments at_once {T M R}. Arguments read_only {M R}. Arguments guarded {M R}. Arguments areachable {T M R}. Arguments anyhow {M R}.
