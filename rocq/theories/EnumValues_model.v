(** Model of cpp_utils/include/cpp_utils/macros/custom_enumeration.hpp for arguments with explicit
    values: ENUMERATION_BUILDER(E, a, b = 5, c).  The arguments of the macro are text for the
    preprocessor and enumerators for the compiler.  Up to 18 arguments, see C26.  Values are those of
    an int; a value that does not fit does not compile. *)
From Coq Require Export List ZArith.
From Verif Require Export Str Outcome Builder_model.
Import ListNotations.

(** an argument: the enumerator, and its value if one is given, with the text that spells it *)
Record enumerator := { name : str; given : option (Z * str) }.

(** macros.hpp:38, :41 STRINGIFY: the spelling of the argument, one space between its tokens (written
    with spaces around the sign) *)
Definition spelling (e : enumerator) : str :=
  match given e with None => name e | Some (_, t) => name e ++ s " = " ++ t end.

(** custom_enumeration.hpp:64-65 enum class: a value given, or one more than the previous one *)
Fixpoint numbered (next : Z) (es : list enumerator) : list Z :=
  match es with
  | [] => []
  | e :: rest => let v := match given e with Some (v, _) => v | None => next end in v :: numbered (v + 1) rest
  end.
Definition values_of (es : list enumerator) : list Z := numbered 0 es.

(** custom_enumeration.hpp:68-69 NAMES_ *)
Definition names_array (es : list enumerator) : list str := map spelling es.

(** custom_enumeration.hpp:72-73: the int is converted to std::size_t, a negative one to a huge index *)
Definition value_to_string (es : list enumerator) (v : Z) : outcome str :=
  if Z.ltb v 0 then UB else enum_to_string (names_array es) (Z.to_nat v).

(** custom_enumeration.hpp:79-93 *)
Definition value_from_string (es : list enumerator) (t : str) : outcome Z :=
  match enum_from_string (names_array es) t with
  | Ret i => Ret (Z.of_nat i)
  | Throw x => Throw x
  | UB => UB | Abort => Abort | OutOfFuel => OutOfFuel
  end.

(** custom_enumeration.hpp:103-112 VALUES_ *)
Definition values_array (es : list enumerator) : list Z := map Z.of_nat (enum_all_values (names_array es)).
