(** Model of the tests that add_test_executable registers, cmake_utils/cmake/test/test_target.cmake:28-101, of add_unittest_executable, :113-125, and of
    add_blackbox_executable, :136-159.

    Lists and conditions are those of Cmake_model.v and CmakeOpt_model.v.  Left out: targets, sources, libraries, labels (C142), the environment, and names of
    tests that are not one argument. *)
From Verif Require Export Str.
From Verif Require Import Cmake_model CmakeOpt_model.

(** a test of CTest: its name, and the arguments of the executable *)
Definition entry := (str * list str)%type.
(** the test for one case, :65-67 *)
Definition case_entry (suite case : str) : entry :=
  (suite ++ s "." ++ case, [s "--gtest_filter=" ++ suite ++ s "**." ++ case ++ s ":**/" ++ suite ++ s "**." ++ case ++ s "/**"]).
(** add_test stops if there is a test of that name in the directory *)
Fixpoint add_tests (names : list str) (l : list entry) : option (list entry) :=
  match l with
  | [] => Some []
  | e :: l => if existsb (str_eqb (fst e)) names then None else option_map (cons e) (add_tests (fst e :: names) l)
  end.
(** add_test_executable: [names]: of the tests of the directory so far, :62-87; the list is a variable of the function, so its value is the condition *)
Definition register (names : list str) (suite cases : str) : option (list entry) :=
  add_tests names (if is_off cases then [(suite, [])] else map (case_entry suite) (arguments cases)).
