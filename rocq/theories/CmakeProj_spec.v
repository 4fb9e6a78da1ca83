(** Specification of C159: the documented variables of a version, cmake_utils/README.md:79-84. *)
From Verif Require Import CmakeOpt_model CmakeSet_model CmakeSet_spec.

Definition major := s "MODULE_VERSION_MAJOR".
Definition minor := s "MODULE_VERSION_MINOR".
Definition patch := s "MODULE_VERSION_PATCH".
Definition whole := s "MODULE_VERSION".
Definition version_string := s "MODULE_VERSION_STRING".
Definition commit := s "MODULE_COMMIT_HASH".
Definition numbers : list str := [major; minor; patch].
(** the settings file of a directory *)
Definition settings_of (dir : str) : str := dir ++ s "/project_settings.cmake".
(** what a package gives for a variable: what its settings file says, or else what its scope already has *)
Definition gives (file : commands) (v : vars) (x t : str) : Prop := says file x t \/ (forall u, ~ In (x, u) file) /\ value v x = Some t.
Definition gives_not (file : commands) (v : vars) (x : str) : Prop := (forall u, ~ In (x, u) file) /\ value v x = None.
(** the common names of the installation directories, which configuring always sets *)
Definition shared : list str := [s "BIN_INSTALL_DIR"; s "INCLUDE_INSTALL_DIR"; s "LIB_INSTALL_DIR"; s "DATA_INSTALL_DIR"; s "LICENSE_INSTALL_DIR"].
