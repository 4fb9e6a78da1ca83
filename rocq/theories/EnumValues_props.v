(** C128: enumerations of ENUMERATION_BUILDER with explicit values. *)
From Coq Require Import List ZArith Ascii.
From Verif Require Import EnumValues_model EnumValues_spec EnumValues_proofs.
Import ListNotations.

(** Without explicit values, the enumerators are numbered in order and convert to their names and back. *)
Theorem C128_plain_partial : forall es i e, compiles es -> plain es -> nth_error es i = Some e ->
  declared es i e (Z.of_nat i) /\ value_to_string es (Z.of_nat i) = Ret (name e) /\ value_from_string es (name e) = Ret (Z.of_nat i).
Proof. exact plain_lemma. Qed.
Print Assumptions C128_plain_partial.

(** In general an enumerator converts to its name exactly if its value is its place and was not written, *)
Theorem C128_to_string : forall es i e v, compiles es -> declared es i e v ->
  (value_to_string es v = Ret (name e) <-> v = Z.of_nat i /\ given e = None).
Proof. exact name_iff_lemma. Qed.
Print Assumptions C128_to_string.

(** its name converts to it in the same case, and is refused if its value was written, *)
Theorem C128_from_string : forall es i e v, compiles es -> declared es i e v ->
  (value_from_string es (name e) = Ret v <-> v = Z.of_nat i /\ given e = None) /\
  (given e <> None -> value_from_string es (name e) = Throw Initialization).
Proof. exact from_iff_lemma. Qed.
Print Assumptions C128_from_string.

(** no conversion to text is undefined if and only if the values are less than their number, *)
Theorem C128_defined : forall es,
  (forall i e v, declared es i e v -> value_to_string es v <> UB) <-> (forall v, In v (values_of es) -> (0 <= v < Z.of_nat (length es))%Z).
Proof. exact defined_lemma. Qed.
Print Assumptions C128_defined.

(** and the array of values is that of the enumerators if and only if each one has its place as value. *)
Theorem C128_values : forall es, values_array es = values_of es <-> forall i e v, declared es i e v -> v = Z.of_nat i.
Proof. exact values_lemma. Qed.
Print Assumptions C128_values.

Definition plain_one (n : str) : enumerator := {| name := n; given := None |}.
Definition one (n : str) (v : Z) (t : str) : enumerator := {| name := n; given := Some (v, t) |}.

Ltac compile := split; [repeat constructor; cbn; intuition discriminate|intros e He; cbn in He; repeat (destruct He as [<-|He]; [cbn; intuition discriminate|]); contradiction].

(** a, b = 5: the text of b is read beyond the array of names, *)
Theorem C128_undefined_refuted : exists es, compiles es /\ declared es 1 (one (s "b") 5 (s "5")) 5 /\ value_to_string es 5 = UB /\ values_array es = [0; 1]%Z.
Proof. exists [plain_one (s "a"); one (s "b") 5 (s "5")]. split; [compile|]. repeat split. Qed.
Print Assumptions C128_undefined_refuted.

(** a = 1, b = 0: each one prints as the other one, *)
Theorem C128_swapped_refuted : exists es, compiles es /\ declared es 0 (one (s "a") 1 (s "1")) 1 /\ declared es 1 (one (s "b") 0 (s "0")) 0 /\
  value_to_string es 1 = Ret (s "b = 0") /\ value_to_string es 0 = Ret (s "a = 1").
Proof. exists [one (s "a") 1 (s "1"); one (s "b") 0 (s "0")]. split; [compile|]. repeat split. Qed.
Print Assumptions C128_swapped_refuted.

(** a, b = 0, c: b, which is a, prints as a, c prints as b, and reading c gives a value that no enumerator has. *)
Theorem C128_alias_refuted : exists es, compiles es /\ values_of es = [0; 0; 1]%Z /\ value_to_string es 1 = Ret (s "b = 0") /\
  value_from_string es (s "c") = Ret 2%Z.
Proof. exists [plain_one (s "a"); one (s "b") 0 (s "0"); plain_one (s "c")]. split; [compile|]. repeat split. Qed.
Print Assumptions C128_alias_refuted.

Example C128_plain_nonvacuous : compiles [plain_one (s "a"); plain_one (s "b")] /\ plain [plain_one (s "a"); plain_one (s "b")] /\
  value_to_string [plain_one (s "a"); plain_one (s "b")] 1 = Ret (s "b").
Proof. split; [compile|]. split; [|reflexivity]. intros e He; cbn in He; repeat (destruct He as [<-|He]; [reflexivity|]); contradiction. Qed.
