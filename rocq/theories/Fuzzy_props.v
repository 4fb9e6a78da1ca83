(** Property C23. *)
From Coq Require Import ZArith Bool.
From Verif Require Import Fuzzy_model Fuzzy_spec Fuzzy_proofs.
Local Open Scope Z_scope.

(** For any value type whose [==] is equality: [==] is an equivalence, [!=] its negation. *)
Theorem C23_equivalence : forall (T : Type) (eqT : T -> T -> bool), (forall x y, eqT x y = true <-> x = y) ->
  (forall a, fuzzy_eq eqT a a = true) /\
  (forall a b, fuzzy_eq eqT a b = true -> fuzzy_eq eqT b a = true) /\
  (forall a b c, fuzzy_eq eqT a b = true -> fuzzy_eq eqT b c = true -> fuzzy_eq eqT a c = true) /\
  (forall a b, fuzzy_neq eqT a b = true <-> fuzzy_eq eqT a b = false).
Proof. exact fuzzy_equivalence. Qed.
Print Assumptions C23_equivalence.

Example C23_equivalence_nonvacuous :
  (forall x y, Z.eqb x y = true <-> x = y) /\
  fuzzy_eq Z.eqb {| value_ := 1; level_ := 40 |} {| value_ := 1; level_ := 40 |} = true /\
  fuzzy_eq Z.eqb {| value_ := 1; level_ := 40 |} {| value_ := 2; level_ := 40 |} = false.
Proof. split; [exact Z.eqb_eq|split; reflexivity]. Qed.

(** Which values are equal. *)
Theorem C23_characterisation : forall (T : Type) (eqT : T -> T -> bool), (forall x y, eqT x y = true <-> x = y) ->
  forall a b, fuzzy_eq eqT a b = true <->
  (level_ a < 20 /\ level_ b < 20) \/ (20 <= level_ a /\ level_ a = level_ b /\ value_ a = value_ b).
Proof. exact fuzzy_eq_iff. Qed.
Print Assumptions C23_characterisation.

(** The documented equality, for values that are invalid or set, and set ones of the same
    level. *)
Theorem C23_documented_partial : forall (T : Type) (eqT : T -> T -> bool), (forall x y, eqT x y = true <-> x = y) ->
  forall a b,
  (level_ a < 0 \/ 20 <= level_ a) -> (level_ b < 0 \/ 20 <= level_ b) ->
  (20 <= level_ a -> 20 <= level_ b -> level_ a = level_ b) ->
  (fuzzy_eq eqT a b = true <-> documented_eq a b).
Proof. exact fuzzy_doc_partial. Qed.
Print Assumptions C23_documented_partial.

Example C23_documented_partial_nonvacuous :
  documented_eq {| value_ := 1; level_ := 40 |} {| value_ := 1; level_ := 40 |} /\
  documented_eq {| value_ := 1; level_ := -20 |} {| value_ := 2; level_ := -1 |}.
Proof. split; [right|left]; unfold documented_set, documented_valid; cbn; repeat split; intro H; try discriminate H; apply H; reflexivity. Qed.

(** The documentation is not followed: the same value set at different levels is different, *)
Theorem C23_levels_refuted : forall (T : Type) (eqT : T -> T -> bool) (v : T), exists a b : fuzzy T,
  documented_eq a b /\ fuzzy_eq eqT a b = false.
Proof. exact fuzzy_levels_differ. Qed.
Print Assumptions C23_levels_refuted.

(** and any two default (valid) values are equal. *)
Theorem C23_defaults_refuted : forall (T : Type) (eqT : T -> T -> bool) (v w : T), v <> w -> exists a b : fuzzy T,
  documented_valid a /\ documented_valid b /\ value_ a <> value_ b /\ ~ documented_eq a b /\ fuzzy_eq eqT a b = true.
Proof. exact fuzzy_defaults_equal. Qed.
Print Assumptions C23_defaults_refuted.

(** Comparison with a plain value is as documented. *)
Theorem C23_plain_value : forall (T : Type) (eqT : T -> T -> bool), (forall x y, eqT x y = true <-> x = y) ->
  forall a v, (fuzzy_eq_value eqT a v = true <-> documented_valid a /\ value_ a = v) /\ (fuzzy_neq_value eqT a v = true <-> ~ (documented_valid a /\ value_ a = v)).
Proof. exact fuzzy_values_lemma. Qed.
Print Assumptions C23_plain_value.

Example C23_plain_value_nonvacuous :
  fuzzy_eq_value Z.eqb {| value_ := 3; level_ := 0 |} 3 = true /\ fuzzy_eq_value Z.eqb {| value_ := 3; level_ := -1 |} 3 = false.
Proof. split; reflexivity. Qed.

(** Only the five named levels have a name. *)
Theorem C23_level_names : forall l t, t <> [] -> get_level_as_str l = t <-> In (l, t) [(-20, s "UNSET"); (0, s "DEFAULT"); (20, s "FUZZY"); (40, s "SET"); (60, s "HARD")].
Proof. exact level_texts_lemma. Qed.
Print Assumptions C23_level_names.

(** C63, for every history of calls *)
Theorem C63_fuzzy_history : forall (T : Type) (f : fuzzy T) before,
  (forall after v l, (forall c, In c after -> keeps_value c) -> value_ (fuzzy_run f (before ++ SetValue v l :: after)) = v) /\
  ((forall c, In c before -> keeps_value c) -> value_ (fuzzy_run f before) = value_ f) /\
  (forall v l, level_ (fuzzy_run f (before ++ [SetValue v l])) = l) /\
  (forall l, level_ (fuzzy_run f (before ++ [SetLevel l])) = l) /\
  (forall eqT v, let u := fuzzy_run f (before ++ [Unset]) in
    ~ documented_valid u /\ ~ documented_set u /\ get_level_as_str (level_ u) = s "UNSET" /\ fuzzy_eq_value eqT u v = false /\ is_valid u = false /\ is_set u = false).
Proof. exact fuzzy_history_lemma. Qed.
Print Assumptions C63_fuzzy_history.

Example C63_fuzzy_history_nonvacuous :
  fuzzy_run {| value_ := 1; level_ := 0 |} [SetLevel 20; SetValue 5 40; Unset; SetLevel 60] = {| value_ := 5; level_ := 60 |}.
Proof. reflexivity. Qed.
