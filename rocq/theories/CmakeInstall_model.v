(** Model of set_installation_paths, cmake_utils/cmake/project/installation_paths.cmake:27-69.

    The variables are those of CmakeOpt_model.v.  Left out: messages, and names or paths with semicolons in the default of the license directory. *)
From Verif Require Export Str.
From Verif Require Import CmakeOpt_model CmakeSet_model.

(** set(x t CACHE PATH doc), which does nothing if there is an entry with a type.  [keep]: policy CMP0126 is NEW; [absolute]: what a path of the command line
    becomes when its entry gets the type PATH *)
Definition cache_path (keep : bool) (absolute : str -> str) (x t : str) (v : vars) : vars :=
  let fresh u := {| normal := if keep then normal v else update (normal v) x None; cached := update (cached v) x (Some (true, u)) |} in
  match cached v x with
  | Some (true, _) => v
  | Some (false, u) => fresh (absolute u)
  | None => fresh t
  end.
(** if (NOT x) set(x t CACHE PATH doc) *)
Definition path_default (keep : bool) (absolute : str -> str) (x t : str) (v : vars) : vars := if truthy v x then v else cache_path keep absolute x t v.
(** :30-44 *)
Definition directories (keep : bool) (absolute : str -> str) (v : vars) : vars :=
  let v := path_default keep absolute (s "MODULE_BIN_INSTALL_DIR") (s "bin/") v in
  let v := path_default keep absolute (s "MODULE_INCLUDE_INSTALL_DIR") (s "include/") v in
  let v := path_default keep absolute (s "MODULE_LIB_INSTALL_DIR") (s "lib/") v in
  path_default keep absolute (s "MODULE_DATA_INSTALL_DIR") (s "share/") v.
(** :46-52 *)
Definition license (keep : bool) (absolute : str -> str) (win32 : bool) (v : vars) : vars :=
  path_default keep absolute (s "MODULE_LICENSE_INSTALL_DIR") (if win32 then s "." else expand v (s "MODULE_DATA_INSTALL_DIR") ++ s "/" ++ expand v (s "MODULE_NAME")) v.
(** the common names, :55-59 *)
Definition common (v : vars) : vars :=
  let v := set_from v (s "BIN_INSTALL_DIR") (s "MODULE_BIN_INSTALL_DIR") in
  let v := set_from v (s "INCLUDE_INSTALL_DIR") (s "MODULE_INCLUDE_INSTALL_DIR") in
  let v := set_from v (s "LIB_INSTALL_DIR") (s "MODULE_LIB_INSTALL_DIR") in
  let v := set_from v (s "DATA_INSTALL_DIR") (s "MODULE_DATA_INSTALL_DIR") in
  set_from v (s "LICENSE_INSTALL_DIR") (s "MODULE_LICENSE_INSTALL_DIR").
(** set_installation_paths, :27-69 *)
Definition paths (keep : bool) (absolute : str -> str) (win32 : bool) (v : vars) : vars := common (license keep absolute win32 (directories keep absolute v)).
