(** Specification of C143: the documented options and their defaults, cmake_options.cmake:23-40. *)
From Verif Require Import CmakeOpt_model.

(** the option, what it is if it is not given, and, in terms of the values [f] of the other options, when that is so *)
Inductive documented (f : str -> option str) : str -> str -> Prop :=
| doc_tests : documented f (s "BUILD_TESTS") (s "OFF")
| doc_as_tests x t : In x [s "BUILD_DOCS_TESTS"; s "BUILD_TOOL_TESTS"; s "BUILD_LIBRARY_TESTS"; s "BUILD_ALL"] -> f (s "BUILD_TESTS") = Some t -> documented f x t
| doc_docs t : f (s "BUILD_DOCS_TESTS") = Some t -> documented f (s "BUILD_DOCS") t
| doc_on x : In x [s "BUILD_TOOL"; s "BUILD_LIBRARY"] -> documented f x (s "ON")
| doc_off x : In x [s "CODE_COVERAGE"; s "TSAN_BUILD"; s "ASAN_BUILD"; s "LOG_INFO"] -> documented f x (s "OFF")
| doc_type : documented f (s "CMAKE_BUILD_TYPE") (s "Release").
(** an option that is given is ON or OFF *)
Definition given_on_off (v : vars) : Prop := forall x t, In x [s "BUILD_TESTS"; s "BUILD_DOCS_TESTS"; s "BUILD_ALL"] -> value v x = Some t -> t = s "ON" \/ t = s "OFF".
