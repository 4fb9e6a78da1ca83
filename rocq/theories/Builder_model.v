(** Model of cpp_utils/include/cpp_utils/types/impl/Builder.ipp, enum/impl/EnumBuilder.ipp,
    macros/custom_enumeration.hpp and macros/recursive_macros.hpp.
    [refactor_values] taking a map of keys to values (Builder.ipp:44-49) does not compile
    when used and is not modelled. *)
From Coq Require Export List Bool Arith.
From Verif Require Export Str Outcome Reader_model.

Section Builder.
(** keys are compared through the order of std::map: [eqK] is its equivalence *)
Variables (Key Value : Type) (eqK : Key -> Key -> bool).

(** the std::map [values_], as the list of its entries, one per key *)
Definition map_find (m : list (Key * Value)) (k : Key) : option Value :=
  option_map snd (List.find (fun e => eqK (fst e) k) m).

(** [m[k] = v] *)
Fixpoint map_set (m : list (Key * Value)) (k : Key) (v : Value) : list (Key * Value) :=
  match m with
  | [] => [(k, v)]
  | (k', v') :: rest => if eqK k' k then (k', v) :: rest else (k', v') :: map_set rest k v
  end.

(** Builder.ipp:93-106: [values_to_keys] as the list of its entries in iteration order *)
Definition indexed_map (values_to_keys : list (Value * list Key)) : list (Key * Value) :=
  fold_left (fun result it => fold_left (fun result k => map_set result k (fst it)) (snd it) result) values_to_keys [].

(** Builder.ipp:58-73: found or not *)
Definition find_flag (m : list (Key * Value)) (k : Key) : option Value := map_find m k.

(** Builder.ipp:75-91 *)
Definition find_or_throw (m : list (Key * Value)) (k : Key) : outcome Value :=
  match find_flag m k with Some v => Ret v | None => Throw ValueNotAllowed end.
End Builder.
Arguments map_find {Key Value}. Arguments map_set {Key Value}. Arguments indexed_map {Key Value}.
Arguments find_flag {Key Value}. Arguments find_or_throw {Key Value}.

(** CommandReader.ipp:40-52 [read_next_command] on the line just read: the arguments, and
    the command found (EnumBuilder.ipp:28-34) or not *)
Definition read_next_command {E} (builder : list (str * E)) (line : str) : outcome (list str * option E) :=
  match read_arguments line with
  | Some (first :: rest) => Ret (first :: rest, find_flag str_eqb builder first)
  | Some [] => UB (* arguments[0] *)
  | None => OutOfFuel
  end.

(** ** Enumerations built by the macro; a value is its index *)

(** custom_enumeration.hpp:72-73 [to_string]: std::array indexing is unchecked *)
Definition enum_to_string (names : list str) (e : nat) : outcome str :=
  match nth_error names e with Some n => Ret n | None => UB end.

(** custom_enumeration.hpp:79-84 [string_to_enumeration]: the loop from index [i] *)
Fixpoint enum_search (names : list str) (i : nat) (t : str) : option nat :=
  match names with
  | [] => None
  | n :: rest => if str_eqb n t then Some i else enum_search rest (S i) t
  end.
Definition enum_find (names : list str) (t : str) : option nat := enum_search names 0 t.

(** custom_enumeration.hpp:87-93 [from_string] *)
Definition enum_from_string (names : list str) (t : str) : outcome nat :=
  match enum_find names t with Some e => Ret e | None => Throw Initialization end.

(** custom_enumeration.hpp:103-108 [all_values] *)
Definition enum_all_values (names : list str) : list nat := seq 0 (length names).

(** recursive_macros.hpp:34-62: [COUNT_ARGUMENTS] selects the 20th of its arguments
    followed by 18, 17 ... 0 and preceded by a dummy.  A macro argument is either one of the
    user's or one of these numbers. *)
Inductive token := User (i : nat) | Number (n : nat).
Definition descending (n : nat) : list token := map Number (rev (seq 0 (S n))).
Definition count_arguments (n_args : nat) : option token :=
  nth_error (User 0 :: map User (seq 1 n_args) ++ descending 18) 19.
(** recursive_macros.hpp:97-118: [APPLY_MACRO_FOR_EACH] selects the 19th of its arguments
    followed by _FE_18 ... _FE_1, and [_FE_n] applies the action to [n] arguments *)
Definition for_each_selected (n_args : nat) : option token :=
  nth_error (map User (seq 1 n_args) ++ map Number (rev (seq 1 18))) 18.
