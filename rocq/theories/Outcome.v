(** Outcomes of a C++ call: undefined behaviour and termination by exception or
    assertion are values of their own, never defaults. *)
Inductive exn :=
| PreconditionNotMet | ValueNotAllowed | Inconsistency | Initialization
| Disabled | Timeout | OutOfRange | InvalidArgument | ValueAccess.

Inductive outcome (A : Type) :=
| Ret (a : A)        (* normal return *)
| Throw (e : exn)    (* exception *)
| UB                 (* undefined behaviour *)
| Abort              (* failed assertion or std::abort *)
| OutOfFuel.         (* a loop of the model did not finish: excluded by the theorems *)
Arguments Ret {A} a.
Arguments Throw {A} e.
Arguments UB {A}.
Arguments Abort {A}.
Arguments OutOfFuel {A}.

Definition obind {A B : Type} (x : outcome A) (f : A -> outcome B) : outcome B :=
  match x with
  | Ret a => f a
  | Throw e => Throw e
  | UB => UB
  | Abort => Abort
  | OutOfFuel => OutOfFuel
  end.
