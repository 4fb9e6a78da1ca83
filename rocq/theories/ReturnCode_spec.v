(** Vocabulary of C51. *)
From Coq Require Import ZArith String.
From Verif Require Import ReturnCode_model.
Local Open Scope Z_scope.

(** the codes that the DDS standard defines *)
Definition middleware_code (z : Z) : Prop := 0 <= z <= 12.

(** the codes that have a counterpart of their own in ReturnCode: OK, PRECONDITION_NOT_MET,
    NOT_ENABLED and NO_DATA *)
Definition named_code (z : Z) : Prop := z = 0 \/ z = 4 \/ z = 6 \/ z = 11.

(** the name printed for a code of the middleware *)
Definition expected_name (z : Z) : string :=
  match z with
  | 0 => "{Ok}"
  | 4 => "{PreconditionNotMet}"
  | 6 => "{NotEnabled}"
  | 11 => "{NoData}"
  | 1 | 2 | 3 | 5 | 7 | 8 | 9 | 10 | 12 => "{Error}"
  | _ => "{Unknown}"
  end%string.
