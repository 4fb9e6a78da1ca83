(** Model of the conditions under which the parts of a package are built: compile_library.cmake:28, compile_tool.cmake:27, compile_test.cmake:29-75 and compile_documentation.cmake:20-72.

    The variables are those of CmakeOpt_model.v.  What is done for a part is one mark: targets and sources of libraries and tools are in CmakeSrc_model.v; the search for
    GoogleTest and the targets of the documentation are left out. *)
From Verif Require Export Str.
From Verif Require Import CmakeOpt_model CmakeSet_model.

(** what is built: the library, the tool, the tests in a directory, the documentation *)
Inductive part := Library | Tool | Tests (directory : str) | Documentation.
(** compile_library, compile_library.cmake:28-287 *)
Definition compile_library (v : vars) : list part := if truthy v (s "BUILD_LIBRARY") then [Library] else [].
(** compile_tool, compile_tool.cmake:27-90 *)
Definition compile_tool (v : vars) : list part := if truthy v (s "BUILD_TOOL") then [Tool] else [].
(** compile_test_library, compile_test.cmake:29-43 *)
Definition compile_test_library (path : str) (v : vars) : list part := if truthy v (s "BUILD_LIBRARY_TESTS") then [Tests path] else [].
(** compile_test_documentation, :46-58 *)
Definition compile_test_documentation (path : str) (v : vars) : list part := if truthy v (s "BUILD_DOCS_TESTS") then [Tests path] else [].
(** compile_test_tool, :61-75 *)
Definition compile_test_tool (path : str) (v : vars) : list part := if truthy v (s "BUILD_TOOL_TESTS") then [Tests path] else [].
(** compile_documentation, compile_documentation.cmake:20-72 *)
Definition compile_documentation (v : vars) : list part := if truthy v (s "BUILD_DOCS") then [Documentation] else [].
