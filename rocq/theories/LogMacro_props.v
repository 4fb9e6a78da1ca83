(** C132: the macros logUser, logDebug and logDevError as statements. *)
From Coq Require Import List ZArith.
From Verif Require Import LogMacro_model LogMacro_spec LogMacro_proofs.

(** A program in which no use is followed by [; else] is one after the macros are replaced too, and it does
    what it would do if the uses were calls: logDebug and logDevError evaluate the message and queue an
    entry exactly when the verbosity is Info, and do nothing in the other builds; logUser prints always. *)
Theorem C132_statement_partial : forall b ts p, program ts p -> Forall written ts -> ~ use_before_else b ts ->
  exists p', program (expand b ts) p' /\ forall W (w : world W) x, executed w p' x = intended w b p x.
Proof. exact statement_lemma. Qed.
Print Assumptions C132_statement_partial.

(** With such a use it is not a program, *)
Theorem C132_else : forall b ts, well_formed ts -> Forall written ts -> (well_formed (expand b ts) <-> ~ use_before_else b ts).
Proof. exact well_formed_lemma. Qed.
Print Assumptions C132_else.

(** and a list of tokens is one program at most. *)
Theorem C132_one_program : forall ts p p', program ts p -> program ts p' -> p = p'.
Proof. exact program_unique. Qed.
Print Assumptions C132_one_program.

(** Entries are queued in the builds that say so. *)
Theorem C132_build : forall f, (build_of f = Queueing <->
  (forall z, have_log_no_info f = Some z -> z = 0%Z) /\
  (enforce_log_info f <> None \/ (internaldebug2 f <> None \/ internaldebug1 f <> None) /\ (debug1 f <> None \/ debug2 f <> None \/ ndebug f = None))).
Proof. exact build_lemma. Qed.
Print Assumptions C132_build.
(** In the others the macros stand for nothing if the switches are not defined or are 0, and for a lambda that is not called otherwise. *)
Theorem C132_nothing : forall f, build_of f <> Queueing -> (build_of f = Nothing <->
  forall z, internaldebug2 f = Some z \/ internaldebug1 f = Some z -> z = 0%Z).
Proof. exact nothing_lemma. Qed.
Print Assumptions C132_nothing.

(** if (c) logDebug(X, m); else f(); *)
Definition if_else (m : macro) : list token := [TIf (COther 0); TDo (AUse m 0); TSemi; TElse; TDo (AOther 1); TSemi].
(** It is a program of the build without logDebug, but not of the one with it; with logUser it never is. *)
Theorem C132_else_refuted : well_formed (if_else LogDebug) /\ well_formed (expand Nothing (if_else LogDebug)) /\
  ~ well_formed (expand Queueing (if_else LogDebug)) /\ forall b, ~ well_formed (expand b (if_else LogUser)).
Proof.
  assert (H : forall m, well_formed (if_else m)) by (intros m; eexists; exists 9; reflexivity).
  assert (F : forall m, Forall written (if_else m)) by (intros m; repeat constructor).
  split; [apply H|]. split; [eexists; exists 9; reflexivity|]. split.
  - apply else_lemma. exists [TIf (COther 0)], LogDebug, 0, [TDo (AOther 1); TSemi]. split; [reflexivity|right; discriminate].
  - intros b. apply else_lemma. exists [TIf (COther 0)], LogUser, 0, [TDo (AOther 1); TSemi]. split; [reflexivity|left; reflexivity].
Qed.
Print Assumptions C132_else_refuted.

(** the world of a program with the message "m": the verbosity, and the entries (or what is printed) *)
Definition w0 : world (kind * list (option kind * str)) :=
  {| other := fun _ x => x; decide := fun _ x => (true, x); verbosity_of := fst; evaluate := fun _ x => (s "m", x);
     queue := fun k t x => (fst x, snd x ++ [(Some k, t)]); print := fun t x => (fst x, snd x ++ [(None, t)]) |}.

(** The documentation says that logDevError and logUser are used as Info level: but the entry of logDevError is a
    warning, that is not queued with verbosity Warning, and logUser prints with any verbosity. *)
Theorem C132_levels_refuted : exists p q, program (expand Queueing [TDo (AUse LogDevError 0); TSemi]) p /\ program (expand Queueing [TDo (AUse LogUser 0); TSemi]) q /\
  executed w0 p (Info, []) = (Info, [(Some Warning, s "DEV_WARNING: m")]) /\ executed w0 p (Warning, []) = (Warning, []) /\
  executed w0 q (Error, []) = (Error, [(None, s "m")]).
Proof. eexists. eexists. split; [exists 20; reflexivity|]. split; [exists 20; reflexivity|]. repeat split. Qed.
Print Assumptions C132_levels_refuted.

(** if (c) { logDebug(X, m); } else f(); if (d) logUser(X, n); g(); *)
Definition sample : list token :=
  [TIf (COther 0); TOpen; TDo (AUse LogDebug 0); TSemi; TClose; TElse; TDo (AOther 1); TSemi; TIf (COther 2); TDo (AUse LogUser 1); TSemi; TDo (AOther 3); TSemi].
Example C132_nonvacuous : (exists p, program sample p) /\ Forall written sample /\ ~ use_before_else Queueing sample /\
  exists p, program (expand Queueing sample) p /\ executed w0 p (Info, []) = (Info, [(Some Info, s "DEBUG: m"); (None, s "m")]) /\
    executed w0 p (Warning, []) = (Warning, [(None, s "m")]).
Proof.
  assert (P : exists p, program sample p) by (eexists; exists 20; reflexivity).
  assert (F : Forall written sample) by (repeat constructor).
  split; [exact P|]. split; [exact F|]. split.
  - apply (well_formed_lemma Queueing sample P F). eexists. exists 20. reflexivity.
  - eexists. split; [exists 20; reflexivity|]. split; reflexivity.
Qed.
