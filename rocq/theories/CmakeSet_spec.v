(** Specification of C145: the documented variables and their defaults, load_project_settings.cmake:22-38. *)
From Verif Require Import CmakeOpt_model CmakeSet_model.

Definition capital (c d : ascii) : Prop := exists i, nth_error (s "abcdefghijklmnopqrstuvwxyz") i = Some c /\ nth_error (s "ABCDEFGHIJKLMNOPQRSTUVWXYZ") i = Some d.
Definition uppercase_of (t u : str) : Prop := Forall2 (fun c d => capital c d \/ c = d /\ ~ In c (s "abcdefghijklmnopqrstuvwxyz")) t u.
(** the variable, and what it is if it is not given, in terms of the values [f] of the others *)
Inductive documented_setting (f : str -> option str) : str -> str -> Prop :=
| doc_name x t : In x [s "MODULE_SUMMARY"; s "MODULE_NAME_LARGE"; s "MODULE_HEADERS_PATH"] -> f (s "MODULE_NAME") = Some t -> documented_setting f x t
| doc_description t : f (s "MODULE_SUMMARY") = Some t -> documented_setting f (s "MODULE_DESCRIPTION") t
| doc_macro t u : f (s "MODULE_NAME") = Some t -> uppercase_of t u -> documented_setting f (s "MODULE_MACRO") u
| doc_install t : f (s "MODULE_HEADERS_PATH") = Some t -> documented_setting f (s "MODULE_HEADERS_INSTALL_PATH") t.
(** a text that is not empty and not a list *)
Definition plain (t : str) : Prop := t <> [] /\ ~ In ";"%char t.
(** what the last set command of the file for [x] says *)
Definition says (file : commands) (x t : str) : Prop := exists a b, file = a ++ (x, t) :: b /\ forall u, ~ In (x, u) b.
(** the texts that CMake takes for false *)
Definition false_text (t : str) : Prop :=
  t = [] \/ (exists w u, In w ["0"; "OFF"; "NO"; "FALSE"; "N"; "IGNORE"; "NOTFOUND"]%string /\ uppercase_of t u /\ u = s w) \/ (exists a, t = a ++ s "-NOTFOUND").
