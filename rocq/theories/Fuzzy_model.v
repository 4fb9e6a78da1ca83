(** Model of cpp_utils/include/cpp_utils/types/Fuzzy.hpp and types/impl/Fuzzy.ipp. *)
From Coq Require Export ZArith Bool.
From Verif Require Export Str.
Local Open Scope Z_scope.

(** Fuzzy.hpp:41-48 *)
Definition fuzzy_level_unset : Z := -20.
Definition fuzzy_level_default : Z := 0.
Definition fuzzy_level_fuzzy : Z := 20.
Definition fuzzy_level_set : Z := 40.
Definition fuzzy_level_hard : Z := 60.

Section Fuzzy.
(** the value type with its [operator ==] *)
Variables (T : Type) (eqT : T -> T -> bool).

(** Fuzzy.hpp: members [value_] and [fuzzy_level_] (any [short]) *)
Record fuzzy := { value_ : T; level_ : Z }.

(** Fuzzy.ipp:118-128 *)
Definition is_valid (f : fuzzy) : bool := fuzzy_level_default <=? level_ f.
Definition is_set (f : fuzzy) : bool := fuzzy_level_fuzzy <=? level_ f.

(** Fuzzy.ipp:58-72 *)
Definition fuzzy_eq (a b : fuzzy) : bool :=
  if negb (is_set a) && negb (is_set b) then true
  else (level_ a =? level_ b) && eqT (value_ a) (value_ b).

(** Fuzzy.ipp:74-86 *)
Definition fuzzy_eq_value (a : fuzzy) (v : T) : bool :=
  if negb (is_valid a) then false else eqT (value_ a) v.

(** Fuzzy.ipp:88-100 *)
Definition fuzzy_neq (a b : fuzzy) : bool := negb (fuzzy_eq a b).
Definition fuzzy_neq_value (a : fuzzy) (v : T) : bool := negb (fuzzy_eq_value a v).

(** Fuzzy.ipp:194-214 *)
Definition unset (f : fuzzy) : fuzzy := {| value_ := value_ f; level_ := fuzzy_level_unset |}.
Definition set_value (f : fuzzy) (v : T) (l : Z) : fuzzy := {| value_ := v; level_ := l |}.
Definition set_level (f : fuzzy) (l : Z) : fuzzy := {| value_ := value_ f; level_ := l |}.

(** a history of calls *)
Inductive fuzzy_call := SetValue (v : T) (l : Z) | SetLevel (l : Z) | Unset.
Definition fuzzy_step (f : fuzzy) (c : fuzzy_call) : fuzzy :=
  match c with SetValue v l => set_value f v l | SetLevel l => set_level f l | Unset => unset f end.
Definition fuzzy_run (f : fuzzy) (cs : list fuzzy_call) : fuzzy := fold_left fuzzy_step cs f.
End Fuzzy.
Arguments value_ {T}. Arguments level_ {T}. Arguments is_valid {T}. Arguments is_set {T}.
Arguments fuzzy_eq {T}. Arguments fuzzy_eq_value {T}. Arguments fuzzy_neq {T}. Arguments fuzzy_neq_value {T}.
Arguments SetValue {T}. Arguments SetLevel {T}. Arguments Unset {T}. Arguments fuzzy_step {T}. Arguments fuzzy_run {T}.
Arguments unset {T}. Arguments set_value {T}. Arguments set_level {T}.

(** Fuzzy.ipp:154-188 *)
Definition get_level_as_str (l : Z) : str :=
  if l =? fuzzy_level_unset then s "UNSET"
  else if l =? fuzzy_level_default then s "DEFAULT"
  else if l =? fuzzy_level_fuzzy then s "FUZZY"
  else if l =? fuzzy_level_set then s "SET"
  else if l =? fuzzy_level_hard then s "HARD"
  else [].
