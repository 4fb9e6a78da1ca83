(** Theorems of C155. *)
From Verif Require Import Str_proofs Cmake_model Cmake_spec CmakeSrc_model CmakeSrc_spec CmakeSrc_proofs.

(** C155. A library for which no source files are given, by this call or those around it, is built from all C and C++ files below its source directory, at any depth, each once, and
    from nothing else. *)
Theorem C155_library : forall calls src include, no_argument 2 calls ->
  NoDup (library false [] calls src include) /\ forall x, In x (library false [] calls src include) <-> exists p, x = Found p /\ all_files src code_endings p.
Proof. exact library_lemma. Qed.
Print Assumptions C155_library.
(** C155. So is a tool. *)
Theorem C155_tool : forall calls src, no_argument 1 calls -> NoDup (tool calls src) /\ forall x, In x (tool calls src) <-> exists p, x = Found p /\ all_files src code_endings p.
Proof. exact tool_lemma. Qed.
Print Assumptions C155_tool.
(** C155. Libraries and tools for which source files are given are built from these, in their order, whatever there is in the directory. *)
Theorem C155_given : forall names a b calls src include, Forall plain names -> names <> [] ->
  library false [] ([a; b; join names] :: calls) src include = map Given names /\ tool ([a; join names] :: calls) src = map Given names.
Proof. exact given_lemma. Qed.
Print Assumptions C155_given.
(** C155. With Visual Studio, the header files that are in directories of the include or source directory are added to those of a library: those directly in them are missing. *)
Theorem C155_headers_partial : forall calls src include, no_argument 2 calls -> forall p, In (Found p) (library true [] calls src include) <->
  all_files src code_endings p \/ deep_files include header_endings p \/ deep_files src header_endings p.
Proof. exact headers_lemma. Qed.
Print Assumptions C155_headers_partial.
(** C155. A test for which no sources of the library are given is built from its own, from the sources of the library that are in directories of the source directory, and from all of
    the common ones of tests: those of the library directly in the source directory are missing. *)
Theorem C155_tests_partial : forall names calls src test, Forall plain names -> no_argument 1 calls -> forall x, In x (test_sources ([join names] :: calls) src test) <->
  (exists n, x = Given n /\ In n names) \/ exists p, x = Found p /\ (deep_files src (code_endings ++ [s ".h"; s ".hpp"; s ".hxx"]) p \/ all_files test [s ".cpp"] p).
Proof. exact tests_lemma. Qed.
Print Assumptions C155_tests_partial.
(** C155. The include directories given for a tool are added to it if the project has the name of the module. *)
Theorem C155_include_partial : forall others module dirs a b calls, Forall plain dirs -> dirs <> [] -> tool_includes others module module ([a; b; join dirs] :: calls) = Some [(module, dirs)].
Proof. exact includes_lemma. Qed.
Print Assumptions C155_include_partial.

Definition tree : directory := (s "src/cpp", Dir [(s "utils.cpp", File); (s "utils.hpp", File); (s "time", Dir [(s "Timer.cpp", File); (s "impl", Dir [(s "clock.c", File); (s "clock.hpp", File)]); (s "notes.txt", File)])]).
Definition nothing : directory := (s "include", Dir []).
Example C155_library_nonvacuous : no_argument 2 [[s "src/cpp"; s "include"]] /\
  library false [] [[s "src/cpp"; s "include"]] tree nothing = map Found [[s "src/cpp"; s "utils.cpp"]; [s "src/cpp"; s "time"; s "impl"; s "clock.c"]; [s "src/cpp"; s "time"; s "Timer.cpp"]].
Proof. split; [apply Forall_cons; [vm_compute; auto|apply Forall_nil]|vm_compute; reflexivity]. Qed.
Example C155_tool_nonvacuous : no_argument 1 [[s "src/cpp"]] /\ length (tool [[s "src/cpp"]] tree) = 3.
Proof. split; [apply Forall_cons; [vm_compute; auto|apply Forall_nil]|vm_compute; reflexivity]. Qed.
Example C155_given_nonvacuous : Forall plain [s "main.cpp"; s "arguments.cpp"] /\ tool [[s "src"; s "main.cpp;arguments.cpp"]] tree = [Given (s "main.cpp"); Given (s "arguments.cpp")].
Proof. split; [repeat (apply Forall_cons; [vm_compute; intuition discriminate|]); apply Forall_nil|vm_compute; reflexivity]. Qed.
Example C155_headers_nonvacuous : library true [] [[s "src/cpp"; s "include"]] tree nothing =
  map Found [[s "src/cpp"; s "utils.cpp"]; [s "src/cpp"; s "time"; s "impl"; s "clock.c"]; [s "src/cpp"; s "time"; s "Timer.cpp"]; [s "src/cpp"; s "time"; s "impl"; s "clock.hpp"]].
Proof. vm_compute. reflexivity. Qed.
Example C155_tests_nonvacuous : test_sources [[s "TimerTest.cpp"]; []] tree nothing =
  Given (s "TimerTest.cpp") :: map Found [[s "src/cpp"; s "time"; s "impl"; s "clock.c"]; [s "src/cpp"; s "time"; s "Timer.cpp"]; [s "src/cpp"; s "time"; s "impl"; s "clock.hpp"]].
Proof. vm_compute. reflexivity. Qed.

Example C155_include_nonvacuous : tool_includes [] (s "ddsrouter_tool") (s "ddsrouter_tool") [[s "src"; s "main.cpp"; s "include;build/include"]] = Some [(s "ddsrouter_tool", [s "include"; s "build/include"])].
Proof. vm_compute. reflexivity. Qed.

(** C155. Refuted: a header file directly in the include directory is not added. *)
Theorem C155_headers_refuted : exists calls src include p, no_argument 2 calls /\ all_files include header_endings p /\ ~ In (Found p) (library true [] calls src include).
Proof.
  exists [[s "src"; s "include"]], (s "src", Dir []), (s "include", Dir [(s "api.hpp", File)]), [s "include"; s "api.hpp"]. split; [apply Forall_cons; [vm_compute; auto|apply Forall_nil]|]. split.
  - exists [s "api.hpp"]. split; [reflexivity|]. split; [constructor; left; reflexivity|]. exists [], (s "api"), (s ".hpp"). split; [right; left; reflexivity|reflexivity].
  - vm_compute. intros [].
Qed.
Print Assumptions C155_headers_refuted.
(** C155. Refuted: whatever header files are given, they are not used: with Visual Studio the source files take their place. *)
Theorem C155_given_headers_refuted : exists names hdrs, Forall plain names /\ Forall plain hdrs /\ names <> [] /\ hdrs <> [] /\ forall msvc a b calls src include x,
  In x hdrs -> ~ In (Given x) (library msvc [] ([a; b; join names; join hdrs] :: calls) src include).
Proof.
  exists [s "lib.cpp"], [s "lib.hpp"]. split; [repeat (apply Forall_cons; [vm_compute; intuition discriminate|]); apply Forall_nil|]. split; [repeat (constructor; [vm_compute; intuition discriminate|]); constructor|]. split; [discriminate|]. split; [discriminate|].
  intros msvc a b calls src include x [<-|[]]. destruct msvc; vm_compute; intuition discriminate.
Qed.
Print Assumptions C155_given_headers_refuted.
(** C155. Refuted: called by a function that has more arguments, it takes one of these for the source files. *)
Theorem C155_inherited_refuted : exists caller src include, library false [] [[fst src; fst include]; caller] src include <> library false [] [[fst src; fst include]] src include /\
  exists t, library false [] [[fst src; fst include]; caller] src include = [Given t] /\ nth_error caller 2 = Some t.
Proof.
  exists [s "x"; s "y"; s "Release"], tree, nothing. split; [vm_compute; discriminate|]. exists (s "Release"). split; vm_compute; reflexivity.
Qed.
Print Assumptions C155_inherited_refuted.
(** C155. Refuted: a source file directly in the source directory of a library is not part of its tests. *)
Theorem C155_tests_refuted : exists calls src test p, no_argument 1 calls /\ all_files src code_endings p /\ ~ In (Found p) (test_sources calls src test).
Proof.
  exists [[s "UtilsTest.cpp"]], (s "src/cpp", Dir [(s "utils.cpp", File)]), nothing, [s "src/cpp"; s "utils.cpp"]. split; [apply Forall_cons; [vm_compute; auto|apply Forall_nil]|]. split.
  - exists [s "utils.cpp"]. split; [reflexivity|]. split; [constructor; left; reflexivity|]. exists [], (s "utils"), (s ".cpp"). split; [right; left; reflexivity|reflexivity].
  - vm_compute. intuition discriminate.
Qed.
Print Assumptions C155_tests_refuted.
(** C155. Refuted: the include directories are added to the target with the name of the project: without one CMake stops, and with one that is another target they are added to it. *)
Theorem C155_include_refuted : exists project module dirs a b, Forall plain dirs /\ dirs <> [] /\ project <> module /\
  tool_includes [] project module [[a; b; join dirs]] = None /\ tool_includes [project] project module [[a; b; join dirs]] = Some [(project, dirs)].
Proof.
  exists (s "ddsrouter"), (s "ddsrouter_tool"), [s "include"], (s "src"), (s "main.cpp"). split; [repeat (apply Forall_cons; [vm_compute; intuition discriminate|]); apply Forall_nil|]. split; [discriminate|]. split; [discriminate|].
  split; vm_compute; reflexivity.
Qed.
Print Assumptions C155_include_refuted.
