(** Model of configure_project_cpp, cmake_utils/cmake/cpp_common/configure_project_cpp.cmake:35-82, and of what it calls: find_external.cmake,
    force_cpp.cmake, code_coverage.cmake, tsan.cmake, asan.cmake, cpp_flags.cmake and cmake_build_type.cmake of the same directory.

    The variables are those of CmakeOpt_model.v and lists those of Cmake_model.v.  Left out: messages, the variables that packages set when they are found,
    the results of earlier checks of the compiler in the cache, and as numbers in conditions all but decimal ones. *)
From Verif Require Export Str.
From Verif Require Import Cmake_model CmakeOpt_model CmakeSet_model.

(** ** find_external.cmake *)

Definition digit (c : ascii) : bool := (48 <=? nat_of_ascii c) && (nat_of_ascii c <=? 57).
Definition dot (c : ascii) : bool := Ascii.eqb c ".".
(** strtod: decimal digits with at most one point between or beside them; whether the number is not 0 *)
Definition number (t : str) : option bool :=
  if forallb (fun c => digit c || dot c) t && existsb digit t && (length (filter dot t) <=? 1) then Some (existsb (fun c => digit c && negb (Ascii.eqb c "0")) t) else None.
(** if (word): constants, numbers, variables; without any word it is false *)
Definition condition (v : vars) (t : str) : bool :=
  match t with
  | [] => false
  | _ => if is_on t then true else if is_off t then false else match number t with Some b => b | None => truthy v t end
  end.

(** a call of find_package(name version REQUIRED) *)
Definition call := (str * option str)%type.
(** the call for one project, :32-44 *)
Definition look_for (v : vars) (name : str) : call :=
  let minimum := expand v (name ++ s "_MINIMUM_VERSION") in
  if condition v minimum then (name, Some minimum) else (name, None).
(** find_external_projects, :28-50; [found]: whether a package is found.  None: CMake stops *)
Fixpoint find_projects (found : call -> bool) (v : vars) (names : list str) : option (list call) :=
  match names with
  | [] => Some []
  | n :: names => if found (look_for v n) then option_map (cons (look_for v n)) (find_projects found v names) else None
  end.

(** ** force_cpp.cmake *)

(** the compiler: what CMake says of it; MSVC stands for MSVC or MSVC_IDE *)
Record compiler := { c_id : str; cxx_id : str; gnucxx : bool; clang_var : bool; msvc : bool; accepts : str -> bool }.
Definition matches (t p : str) : bool := match sfind p t with Some _ => true | None => false end.
(** force_cpp_11, _14, _17 and _20, :41-115 *)
Definition force (comp : compiler) (n : str) (v : vars) : option vars :=
  if (gnucxx comp || clang_var comp || matches (cxx_id comp) (s "Clang")) && negb (accepts comp (s "-std=c++" ++ n)) then None
  else Some (set_text v (s "CMAKE_CXX_STANDARD") n).
(** force_cpp, :23-39 *)
Definition force_cpp (comp : compiler) (t : str) (v : vars) : option vars :=
  if str_eqb t [] then Some v
  else if str_eqb t (s "11") || str_eqb t (s "C++11") then force comp (s "11") v
  else if str_eqb t (s "14") || str_eqb t (s "C++14") then force comp (s "14") v
  else if str_eqb t (s "17") || str_eqb t (s "C++17") then force comp (s "17") v
  else if str_eqb t (s "20") || str_eqb t (s "C++20") then force comp (s "20") v
  else None.
(** configure_project_cpp.cmake:41-45; a macro that is called without its argument stops CMake *)
Definition cpp_version (comp : compiler) (v : vars) : option vars :=
  if defined v (s "MODULE_CPP_VERSION")
  then match arguments (expand v (s "MODULE_CPP_VERSION")) with [] => None | t :: _ => force_cpp comp t v end
  else Some v.

(** ** the flags *)

(** set(x "${x} t") *)
Definition append (x t : str) (v : vars) : vars := set_text v x (expand v x ++ s " " ++ t).
(** MATCHES (Apple)?[Cc]lang *)
Definition llvm (comp : compiler) : bool := let is t := matches t (s "Clang") || matches t (s "clang") in is (c_id comp) || is (cxx_id comp).
(** the common form of activate_code_coverage, code_coverage.cmake:20-45, activate_thread_sanitizer, tsan.cmake:20-44, and activate_address_sanitizer,
    asan.cmake:20-44; None: CMake stops *)
Definition activate (clang_flags gcc_flags : str) (comp : compiler) (v : vars) : option vars :=
  let add t v := append (s "CMAKE_CXX_FLAGS") t (append (s "CMAKE_C_FLAGS") t v) in
  if llvm comp then Some (add clang_flags v) else if gnucxx comp then Some (add gcc_flags v) else None.
Definition coverage := activate (s "-fprofile-instr-generate -fcoverage-mapping") (s "--coverage -fprofile-arcs -ftest-coverage").
Definition tsan := activate (s "-fsanitize=thread") (s "-fsanitize=thread -fno-omit-frame-pointer").
Definition asan := activate (s "-fsanitize=address") (s "-fsanitize=address -fno-omit-frame-pointer").
(** custom_cpp_flags, cpp_flags.cmake:20-29 *)
Definition custom (comp : compiler) (v : vars) : vars := if msvc comp then append (s "CMAKE_CXX_FLAGS") (s "/Zc:preprocessor") v else v.

(** ** configure_project_cpp *)

(** set_cmake_build_type, cmake_build_type.cmake:21-35: set(... CACHE STRING ... FORCE).  [keep]: policy CMP0126 is NEW *)
Definition build_type (keep : bool) (v : vars) : vars :=
  let x := s "CMAKE_BUILD_TYPE" in
  if negb (truthy v x) && negb (truthy v (s "CMAKE_CONFIGURATION_TYPES"))
  then {| normal := if keep then normal v else update (normal v) x None; cached := update (cached v) x (Some (true, s "Release")) |}
  else v.
(** option(BUILD_SHARED_LIBS ... ON), :48; policy CMP0077 is NEW *)
Definition shared_libs (v : vars) : vars :=
  let x := s "BUILD_SHARED_LIBS" in
  match value v x with Some _ => v | None => {| normal := normal v; cached := update (cached v) x (Some (true, s "ON")) |} end.
Definition when (b : bool) (f : vars -> option vars) (o : option vars) : option vars :=
  match o with Some v => if b then f v else Some v | None => None end.
(** coverage and sanitizers, :60-74 *)
Definition instruments (comp : compiler) (v : vars) : option vars :=
  let v1 := when (truthy v (s "CODE_COVERAGE")) (coverage comp) (Some v) in
  let v2 := when (truthy v (s "TSAN_BUILD")) (tsan comp) v1 in
  when (truthy v (s "ASAN_BUILD")) (fun w => if truthy w (s "TSAN_BUILD") then None else asan comp w) v2.
(** configure_project_cpp, :35-82: the variables after it and the packages looked for *)
Definition configure_cpp (keep : bool) (comp : compiler) (found : call -> bool) (v : vars) : option (vars * list call) :=
  match cpp_version comp (build_type keep v) with
  | None => None
  | Some v1 =>
    let v2 := shared_libs v1 in
    match find_projects found v2 (arguments (expand v2 (s "MODULE_FIND_PACKAGES"))) with   (* :51-53 *)
    | None => None
    | Some calls => match instruments comp v2 with Some v3 => Some (custom comp v3, calls) | None => None end
    end
  end.
