(** What Fuzzy.hpp documents (lines 108-127), with the levels written out. *)
From Coq Require Import ZArith.
From Verif Require Import Fuzzy_model.
Local Open Scope Z_scope.

Definition documented_valid {T} (f : fuzzy T) : Prop := 0 <= level_ f.
Definition documented_set {T} (f : fuzzy T) : Prop := 20 <= level_ f.

(** "true if both are invalid, or if both are set and internal value is the same" *)
Definition documented_eq {T} (a b : fuzzy T) : Prop :=
  (~ documented_valid a /\ ~ documented_valid b) \/
  (documented_set a /\ documented_set b /\ value_ a = value_ b).

(** calls that leave the value as it is *)
Definition keeps_value {T} (c : fuzzy_call T) : Prop := match c with SetValue _ _ => False | _ => True end.
