(** Model of the labels of tests that are expected to fail: cmake_utils/cmake/test/gtest.cmake:79-101.  Lists and lines of files are those of Cmake_model.v. *)
From Verif Require Export Str.
From Verif Require Import Cmake_model.

(** the labels of the tests of the directory; None: there is no such test *)
Definition tests := str -> option (list str).
(** set_property(TEST names... PROPERTY LABELS label): replaces the labels; None: an error, as a test does not exist *)
Fixpoint set_property (names : list str) (label : str) (t : tests) : option tests := match names with
  | [] => Some t
  | x :: r => match t x with Some _ => set_property r label (fun y => if str_eqb x y then Some [label] else t y) | None => None end end.
(** foreach over the lines, :82-84; the name is an unquoted argument *)
Fixpoint set_each (lines : list str) (label : str) (t : tests) : option tests := match lines with
  | [] => Some t
  | x :: r => match set_property (arguments x) label t with Some t' => set_each r label t' | None => None end end.
(** [file]: its lines, if it exists, :80-86 and :95-100 *)
Definition add_label (file : option (list str)) (label : str) (t : tests) : option tests := match file with Some lines => set_each (arguments (file_strings lines)) label t | None => Some t end.
(** add_xfail_label, :79-86 *)
Definition add_xfail_label (file : option (list str)) : tests -> option tests := add_label file (s "xfail").
(** add_windows_xfail_label, :88-92 *)
Definition add_windows_xfail_label (win32 : bool) (file : option (list str)) (t : tests) : option tests := if win32 then add_xfail_label file t else Some t.
(** add_xtsan_label, :94-101 *)
Definition add_xtsan_label (file : option (list str)) : tests -> option tests := add_label file (s "xtsan").
