(** Model of configure_project, cmake_utils/cmake/project/configure_project.cmake:49-86, and of what it calls: in_source_build_prevention.cmake and
    read_commit_hash.cmake of the same directory, load_project_settings (CmakeSet_model.v), read_version, configure_cmake_options (CmakeOpt_model.v) and
    set_installation_paths (CmakeInstall_model.v).

    The variables are those of CmakeOpt_model.v and lists those of Cmake_model.v.  Left out: messages, find_package(... QUIET), :58-60, which never stops, and the
    variables that packages set when they are found; the variables READ_VERSION_FILE, _ and CMAKE_MATCH_n of read_version. *)
From Verif Require Export Str.
From Verif Require Import Cmake_model CmakeOpt_model CmakeSet_model CmakeInstall_model.

(** a build: policy CMP0126, how CMake makes a path absolute, WIN32, CMAKE_SOURCE_DIR, CMAKE_BINARY_DIR, the settings files, the text of the other files,
    and what git rev-parse HEAD prints in a directory: nothing if it fails *)
Record build := { keep : bool; absolute : str -> str; win32 : bool; source : str; binary : str; settings : str -> option commands; text : str -> option str; git : str -> str }.

(** read_version.cmake:34-61 with the variables of the package: the path is an argument that is not quoted, configure_project.cmake:68.  None: CMake stops, because
    there is no path, no file or nothing in it *)
Definition read_into (b : build) (v : vars) : option vars :=
  match arguments (expand v (s "MODULE_VERSION_FILE_PATH")) with
  | [] => None
  | path :: _ =>
    match text b path with
    | None => None   (* read_version.cmake:37 *)
    | Some content =>
      match arguments content with
      | [] => None   (* :39 *)
      | args =>
        let t := concat args in
        let v := set v (s "MODULE_VERSION_MAJOR") (match_1 (s "VERSION_MAJOR ") t) in   (* :39-40 *)
        let v := set v (s "MODULE_VERSION_MINOR") (match_1 (s "VERSION_MINOR ") t) in   (* :42-43 *)
        let v := set v (s "MODULE_VERSION_PATCH") (match_1 (s "VERSION_PATCH ") t) in   (* :45-46 *)
        let v := default (s "MODULE_VERSION") (expand v (s "MODULE_VERSION_MAJOR") ++ s "." ++ expand v (s "MODULE_VERSION_MINOR") ++ s "." ++ expand v (s "MODULE_VERSION_PATCH")) v in   (* :49-51 *)
        Some (if defined v (s "MODULE_VERSION_STRING") then v else set_text v (s "MODULE_VERSION_STRING") (s "v" ++ expand v (s "MODULE_VERSION")))   (* :53-56 *)
      end
    end
  end.
(** configure_project.cmake:63-69 *)
Definition version_step (b : build) (v : vars) : option vars :=
  if defined v (s "MODULE_VERSION_MAJOR") && defined v (s "MODULE_VERSION_MINOR") && defined v (s "MODULE_VERSION_PATCH") && defined v (s "MODULE_VERSION") then Some v else read_into b v.
(** configure_project.cmake:72-75 and read_commit_hash.cmake:27-37: git runs in the source directory of the build, and its output, without the end of the line,
    is always stored *)
Definition hash_step (b : build) (v : vars) : vars :=
  if defined v (s "MODULE_COMMIT_HASH") then v else set_text v (s "MODULE_COMMIT_HASH") (git b (source b)).
(** configure_project, :49-86, in the directory [dir]: CMAKE_CURRENT_SOURCE_DIR.  None: CMake stops; in_source_build_prevention.cmake:21-31 does so at once *)
Definition configure_project (b : build) (dir : str) (v : vars) : option vars :=
  if str_eqb (source b) (binary b) then None
  else match load (settings b) dir [] v with
  | None => None
  | Some v =>
    match version_step b v with
    | None => None
    | Some v => option_map (paths (keep b) (absolute b) (win32 b)) (configure (keep b) (hash_step b v))
    end
  end.
