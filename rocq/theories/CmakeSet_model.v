(** Model of load_project_settings, cmake_utils/cmake/project/load_project_settings.cmake:43-152.

    The variables are those of CmakeOpt_model.v and lists those of Cmake_model.v.  A settings file is a list of set commands with the
    text of each value.  Left out: values that are keywords of set, file names with semicolons, messages. *)
From Verif Require Export Str.
From Verif Require Import Cmake_model CmakeOpt_model.

(** set(x "t") *)
Definition set_text (v : vars) (x t : str) : vars := {| normal := update (normal v) x (Some t); cached := cached v |}.
Fixpoint join (l : list str) : str := match l with [] => [] | [t] => t | t :: l' => t ++ s ";" ++ join l' end.
(** set(x ${y}): the arguments that remain of the value of y are joined; without any it is unset(x) *)
Definition set_from (v : vars) (x y : str) : vars :=
  match arguments (expand v y) with
  | [] => {| normal := update (normal v) x None; cached := cached v |}
  | args => set_text v x (join args)
  end.
(** if (x), of the name of a variable that is not a constant *)
Definition truthy (v : vars) (x : str) : bool := match value v x with Some w => negb (is_off w) | None => false end.

(** what a variable is set to: another one, or a text in quotes *)
Inductive rhs := Copy (y : str) | Text (t : str).
(** if (NOT x) set(x r) *)
Definition setting (x : str) (r : rhs) (v : vars) : vars :=
  if truthy v x then v else match r with Copy y => set_from v x y | Text t => set_text v x t end.
(** if (NOT MODULE_MACRO) string(TOUPPER ${MODULE_NAME} MODULE_MACRO), :88-90; None: CMake stops if the name is not one argument *)
Definition macro (v : vars) : option vars :=
  if truthy v (s "MODULE_MACRO") then Some v
  else match arguments (expand v (s "MODULE_NAME")) with
  | [t] => Some (set_text v (s "MODULE_MACRO") (map upper t))
  | _ => None
  end.

(** the information of the module, :66-85 *)
Definition information (v : vars) : vars :=
  let v := setting (s "MODULE_TARGET_NAME") (Copy (s "MODULE_NAME")) v in
  let v := setting (s "MODULE_NAME_LARGE") (Copy (s "MODULE_NAME")) v in
  let v := setting (s "MODULE_SUMMARY") (Copy (s "MODULE_NAME")) v in
  setting (s "MODULE_DESCRIPTION") (Copy (s "MODULE_SUMMARY")) v.
(** dependencies, version and files, :92-146; [dir]: CMAKE_CURRENT_SOURCE_DIR *)
Definition dependencies (dir : str) (v : vars) : vars :=
  let v := setting (s "MODULE_THIRDPARTY_PATH") (Text (dir ++ s "/../thirdparty")) v in
  let v := setting (s "MODULE_FIND_PACKAGES") (Text []) v in
  let v := setting (s "MODULE_DEPENDENCIES") (Copy (s "MODULE_FIND_PACKAGES")) v in
  let v := setting (s "MODULE_VERSION_FILE_PATH") (Text (dir ++ s "/../VERSION")) v in
  setting (s "MODULE_LICENSE_FILE_PATH") (Text (dir ++ s "/../LICENSE")) v.
Definition headers (v : vars) : vars :=
  let v := setting (s "MODULE_HEADERS_PATH") (Copy (s "MODULE_NAME")) v in
  let v := setting (s "MODULE_HEADERS_INSTALL_PATH") (Copy (s "MODULE_HEADERS_PATH")) v in
  let v := setting (s "MODULE_PUBLIC_EXTRA_HEADERS") (Text []) v in
  setting (s "MODULE_PRIVATE_EXTRA_HEADERS") (Text []) v.
Definition defaults (dir : str) (v : vars) : option vars := option_map (fun v => headers (dependencies dir v)) (macro (information v)).

(** a settings file, and include *)
Definition commands := list (str * str).
Definition execute (file : commands) (v : vars) : vars := fold_left (fun v c => set_text v (fst c) (snd c)) file v.
(** the file, :45-54: the first argument, if there is any *)
Definition settings_file (dir : str) (args : list str) : str := match args with [] => dir ++ s "/project_settings.cmake" | f :: _ => f end.
(** the variables that the choice of the file sets, :45-54 *)
Definition chosen (dir : str) (args : list str) (v : vars) : vars :=
  let v := match args with [] => {| normal := update (normal v) (s "VARIADIC_ARGS") None; cached := cached v |} | _ => set_text v (s "VARIADIC_ARGS") (join args) end in
  let v := set_text v (s "VARIADIC_ARGS_LENGTH") (match args with [] => s "0" | _ => s "1" end) in   (* any number but 0 *)
  set_text v (s "PROJECT_SETTINGS_FILE") (settings_file dir args).
(** load_project_settings, :43-152; None: CMake stops, because there is no file, :57, or no name, :60-62, or the name is none, :89 *)
Definition load (files : str -> option commands) (dir : str) (args : list str) (v : vars) : option vars :=
  match files (settings_file dir args) with
  | None => None
  | Some file =>
    let v := execute file (chosen dir args v) in
    if defined v (s "MODULE_NAME") then defaults dir v else None
  end.
