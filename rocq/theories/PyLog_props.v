(** C105, C106: the global logger of py_utils. *)
From Coq Require Import Lia.
From Verif Require Import PyLog_proofs.

Definition any_format (f : str) := true.

(** C105.  A message that is printed is printed once for each format ever set, oldest first and with the one of the constructor. *)
Theorem C105_lines valid k ops j m ls : prints valid k ops j m ls -> ls <> [] ->
  ls = map (fun f => {| format := f; severity := j; message := m |}) (formats valid ops).
Proof. exact (lines valid k ops j m ls). Qed.
Print Assumptions C105_lines.
(** Without set_format, at most once.  Missing: programs that call set_format; see C105_refuted. *)
Theorem C105_once_partial valid k ops j m ls : (forall f, ~ In (SetFormat f) ops) -> prints valid k ops j m ls ->
  ls = [] \/ ls = [{| format := default_format; severity := j; message := m |}].
Proof. exact (once valid k ops j m ls). Qed.
Print Assumptions C105_once_partial.
(** A new format does not replace the previous one: the message is printed twice. *)
Theorem C105_refuted : prints any_format INFO [SetFormat (s "%(message)s")] WARNING (s "disk full")
  [{| format := default_format; severity := WARNING; message := s "disk full" |}; {| format := s "%(message)s"; severity := WARNING; message := s "disk full" |}].
Proof. vm_compute. reflexivity. Qed.
Print Assumptions C105_refuted.
Example C105_nonvacuous : (forall f, ~ In (SetFormat f) [ActivateDebug; Log INFO (s "a")]) /\
  prints any_format INFO [ActivateDebug; Log INFO (s "a")] DEBUG (s "b") [{| format := default_format; severity := DEBUG; message := s "b" |}].
Proof. split; [|vm_compute; reflexivity]. intros f [H|[H|[]]]; discriminate H. Qed.

(** C106.  Whether messages of a level are printed is decided by the settings at the first use of that level ... *)
Theorem C106_first_use valid k ops first j m ls : (0 <= j)%Z -> before_first_use j ops first -> prints valid k ops j m ls ->
  (ls <> [] <-> allows k first j).
Proof. exact (printed_first valid k ops first j m ls). Qed.
Print Assumptions C106_first_use.
(** ... and so is the answer of isEnabledFor. *)
Theorem C106_enabled valid k ops first j : before_first_use j ops first ->
  exists b, effect_after valid k ops (IsEnabledFor j) = Answer b /\ (b = true <-> allows k first j).
Proof. exact (answered valid k ops first j). Qed.
Print Assumptions C106_enabled.
(** There is always such a first use or none. *)
Theorem C106_exists j ops : exists first, before_first_use j ops first.
Proof. exact (exists_first j ops). Qed.
Print Assumptions C106_exists.
(** A level that was not used before follows the level set last.  Missing: levels already used; see C106_refuted. *)
Theorem C106_fresh_partial valid k ops j m ls : (0 <= j)%Z -> Forall (fun o => ~ uses j o) ops -> prints valid k ops j m ls ->
  (ls <> [] <-> allows k ops j).
Proof. exact (printed_fresh valid k ops j m ls). Qed.
Print Assumptions C106_fresh_partial.
(** After a message of level DEBUG was not printed, activate_debug does not make them be printed; after one of level INFO was, a higher level does not stop them. *)
Theorem C106_refuted :
  (allows INFO [Log DEBUG (s "a"); ActivateDebug] DEBUG /\ prints any_format INFO [Log DEBUG (s "a"); ActivateDebug] DEBUG (s "b") []) /\
  (~ allows INFO [Log INFO (s "a"); SetLogLevel WARNING] INFO /\
   prints any_format INFO [Log INFO (s "a"); SetLogLevel WARNING] INFO (s "b") [{| format := default_format; severity := INFO; message := s "b" |}]).
Proof. unfold allows. repeat split; vm_compute; try reflexivity; try discriminate. intros [H _]. now apply H. Qed.
Print Assumptions C106_refuted.
Example C106_nonvacuous : before_first_use DEBUG [ActivateDebug; Log DEBUG (s "a"); SetLogLevel WARNING] [ActivateDebug] /\ allows INFO [ActivateDebug] DEBUG /\
  prints any_format INFO [ActivateDebug; Log DEBUG (s "a"); SetLogLevel WARNING] DEBUG (s "b") [{| format := default_format; severity := DEBUG; message := s "b" |}].
Proof.
  split; [|split; [unfold allows; vm_compute; split; congruence | vm_compute; reflexivity]].
  split.
  - constructor; [|constructor]. intros [[m H]|H]; discriminate H.
  - right. exists (Log DEBUG (s "a")), [SetLogLevel WARNING]. split; [reflexivity|]. left. now exists (s "a").
Qed.
