(** Properties C25, C26. *)
From Coq Require Import List Bool Arith.
From Verif Require Import Str Outcome Builder_model Builder_spec Builder_proofs Reader_spec.
Import ListNotations.

(** *** C25 *)

(** Built from values and their keys: a key gives the last value that has it, and throws
    exactly when no value has it. *)
Theorem C25_values_to_keys : forall (Key Value : Type) (eqK : Key -> Key -> bool),
  (forall x y, eqK x y = true <-> x = y) -> forall (l : list (Value * list Key)) k,
  (forall v, find_or_throw eqK (indexed_map eqK l) k = Ret v <-> last_registered l k v) /\
  (find_or_throw eqK (indexed_map eqK l) k = Throw ValueNotAllowed <-> unregistered l k).
Proof. exact builder_lemma. Qed.
Print Assumptions C25_values_to_keys.

Definition sample_aliases : list (nat * list str) := [(1, [s "on"; s "yes"]); (2, [s "off"; s "no"; s "yes"]); (3, [])].
Example C25_values_to_keys_nonvacuous :
  find_or_throw str_eqb (indexed_map str_eqb sample_aliases) (s "on") = Ret 1 /\
  find_or_throw str_eqb (indexed_map str_eqb sample_aliases) (s "yes") = Ret 2 /\
  find_or_throw str_eqb (indexed_map str_eqb sample_aliases) (s "On") = Throw ValueNotAllowed.
Proof. repeat split. Qed.

(** Built from a map of keys to values. *)
Theorem C25_keys_to_values : forall (Key Value : Type) (eqK : Key -> Key -> bool),
  (forall x y, eqK x y = true <-> x = y) -> forall (m : list (Key * Value)), NoDup (map fst m) -> forall k,
  (forall v, find_or_throw eqK m k = Ret v <-> In (k, v) m) /\
  (find_or_throw eqK m k = Throw ValueNotAllowed <-> ~ In k (map fst m)).
Proof. exact key_map_lemma. Qed.
Print Assumptions C25_keys_to_values.

Example C25_keys_to_values_nonvacuous :
  NoDup (map fst [(s "a", 1); (s "b", 2)]) /\ find_or_throw str_eqb [(s "a", 1); (s "b", 2)] (s "b") = Ret 2.
Proof. split; [repeat constructor; cbn; intuition discriminate|reflexivity]. Qed.

(** The command reader: a line gives its arguments and the command whose aliases contain
    the first one (arguments as in C21). *)
Theorem C25_command : forall (E : Type) (l : list (E * list str)) (args : list argument) (a : argument) (rest : list argument),
  args = a :: rest -> Forall writable args -> Forall (fun a => ~ leading_space a) args ->
  exists found, read_next_command (indexed_map str_eqb l) (write_line args) = Ret (map value args, found) /\
    forall e, found = Some e <-> last_registered l (value a) e.
Proof. exact command_lemma. Qed.
Print Assumptions C25_command.

Example C25_command_nonvacuous :
  read_next_command (indexed_map str_eqb sample_aliases)
    (write_line [{| quoted := false; value := s "no" |}; {| quoted := true; value := s "a b" |}]) =
  Ret ([s "no"; s "a b"], Some 2).
Proof. vm_compute. reflexivity. Qed.

(** Reading a command never fails, whatever the line. *)
Theorem C25_command_safe : forall (E : Type) (b : list (str * E)) line, exists args found,
  read_next_command b line = Ret (args, found) /\ args <> [].
Proof. exact command_safe_lemma. Qed.
Print Assumptions C25_command_safe.

(** *** C26 *)

(** Enumerators have different names. *)
Theorem C26_from_to : forall names e, NoDup names -> e < length names ->
  exists n, enum_to_string names e = Ret n /\ enum_from_string names n = Ret e.
Proof. exact enum_from_to_lemma. Qed.
Print Assumptions C26_from_to.

Example C26_from_to_nonvacuous :
  NoDup [s "red"; s "green"; s "blue"] /\ enum_from_string [s "red"; s "green"; s "blue"] (s "blue") = Ret 2.
Proof. split; [repeat constructor; cbn; intuition discriminate|reflexivity]. Qed.

Theorem C26_to_from : forall names t e, enum_from_string names t = Ret e ->
  e < length names /\ enum_to_string names e = Ret t.
Proof. exact enum_to_from_lemma. Qed.
Print Assumptions C26_to_from.

Theorem C26_rejects : forall names t, enum_from_string names t = Throw Initialization <-> ~ In t names.
Proof. exact enum_reject_lemma. Qed.
Print Assumptions C26_rejects.

Example C26_rejects_nonvacuous : enum_from_string [s "red"; s "green"] (s "Red") = Throw Initialization.
Proof. reflexivity. Qed.

Theorem C26_all_values : forall names e, In e (enum_all_values names) <-> e < length names.
Proof. exact enum_values_lemma. Qed.
Print Assumptions C26_all_values.

(** The preprocessor counts the enumerators, up to 18, *)
Theorem C26_count_arguments : forall n, n <= 18 -> count_arguments n = Some (Number n).
Proof. exact count_arguments_lemma. Qed.
Print Assumptions C26_count_arguments.

(** and takes the 19th enumerator for their number when there are more, *)
Theorem C26_too_many_arguments : forall n, 18 < n -> count_arguments n = Some (User 19).
Proof. exact count_arguments_over. Qed.
Print Assumptions C26_too_many_arguments.

(** and repeats an action once per argument. *)
Theorem C26_for_each : forall n, 1 <= n <= 18 -> for_each_selected n = Some (Number n).
Proof. exact for_each_lemma. Qed.
Print Assumptions C26_for_each.
