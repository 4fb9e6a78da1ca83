(** Model of two CMake modules: cmake_utils/cmake/project/read_version.cmake and cmake_utils/cmake/test/test_labels.cmake.

    The commands of CMake are read as its manual and its source describe them; message() is left out.  Files contain no NUL. *)
From Coq Require Export ZArith.
From Verif Require Export Str.

(** How CMake expands an argument that is not quoted, or a list: at each ; that is not escaped and not inside of []. [nesting] counts
    the brackets, [cur] is the element so far. *)
Fixpoint split_list (t : str) (nesting : Z) (cur : str) : list str :=
  match t with
  | [] => [cur]
  | c :: t' =>
    if Ascii.eqb c ";" then if (nesting =? 0)%Z then cur :: split_list t' nesting [] else split_list t' nesting (cur ++ [c])
    else if Ascii.eqb c "\" then
      match t' with
      | d :: t'' => if Ascii.eqb d ";" then split_list t'' nesting (cur ++ [d]) else split_list t' nesting (cur ++ [c])
      | [] => [cur ++ [c]]
      end
    else if Ascii.eqb c "[" then split_list t' (nesting + 1) (cur ++ [c])
    else if Ascii.eqb c "]" then split_list t' (nesting - 1) (cur ++ [c])
    else split_list t' nesting (cur ++ [c])
  end.
Definition nonempty (t : str) : bool := match t with [] => false | _ => true end.
(** arguments and foreach drop empty elements; IN_LIST does not *)
Definition elements (t : str) : list str := if existsb (Ascii.eqb ";") t then split_list t 0 [] else [t].
Definition arguments (t : str) : list str := filter nonempty (elements t).

(** ** read_version.cmake *)

(** what zero or more of [0-9] match *)
Fixpoint leading_digits (t : str) : str :=
  match t with
  | c :: t' => if (48 <=? nat_of_ascii c) && (nat_of_ascii c <=? 57) then c :: leading_digits t' else []
  | [] => []
  end.
(** CMAKE_MATCH_1 after string(REGEX MATCH), for a key and the digits after it: empty if there is no match *)
Definition match_1 (key t : str) : str :=
  match sfind key t with Some i => leading_digits (skipn (i + length key) t) | None => [] end.

(** the variables that the macro sets; an undefined one of the first three is empty *)
Record version := { v_major : str; v_minor : str; v_patch : str; v_version : str; v_string : str }.

(** read_version, :34-61.  [before]: MODULE_VERSION and MODULE_VERSION_STRING if they are defined.  None: CMake stops with an error,
    because there is no file, :37, or nothing remains of its content as arguments, :39. *)
Definition read_version (file : option str) (before : option str * option str) : option version :=
  match file with
  | None => None
  | Some content =>
    match arguments content with
    | [] => None
    | args =>
      let t := concat args in   (* string concatenates its arguments *)
      let major := match_1 (s "VERSION_MAJOR ") t in   (* :39-40 *)
      let minor := match_1 (s "VERSION_MINOR ") t in   (* :42-43 *)
      let patch := match_1 (s "VERSION_PATCH ") t in   (* :45-46 *)
      let v := match fst before with Some v => v | None => major ++ s "." ++ minor ++ s "." ++ patch end in   (* :49-51 *)
      let vs := match snd before with Some x => x | None => s "v" ++ v end in   (* :53-56 *)
      Some {| v_major := major; v_minor := minor; v_patch := patch; v_version := v; v_string := vs |}
    end
  end.

(** ** test_labels.cmake *)

(** list(APPEND l x) *)
Definition list_append (l x : str) : str := match l with [] => x | _ => l ++ s ";" ++ x end.
(** list(LENGTH l) *)
Definition list_length (l : str) : nat := match l with [] => 0 | _ => length (elements l) end.
(** what file(STRINGS) makes of the lines of a file: a list with its semicolons escaped *)
Fixpoint escape (t : str) : str := match t with [] => [] | c :: t' => if Ascii.eqb c ";" then "\"%char :: c :: escape t' else c :: escape t' end.
Definition file_strings (lines : list str) : str :=
  match lines with [] => [] | l :: ls => escape l ++ concat (map (fun x => s ";" ++ escape x) ls) end.

(** the variables of a directory: INTERNAL_TEST_LABELS; ${PROJECT_NAME}_TEST_LABELS; and ${PROJECT_NAME}_LABEL_TEST_N, if they are defined *)
Record scope := { internal : str; test_labels : str; label_test : nat -> option str }.
Definition no_labels : scope := {| internal := []; test_labels := []; label_test := fun _ => None |}.

(** set_test_label_file, :22-49, in the directory; None: return() at :29 leaves the file that has called the macro *)
Definition set_test_label_file (file : option (list str)) (label : str) (d : scope) : option scope :=
  match file with
  | None => None
  | Some lines =>
    let n := list_length (internal d) in
    let i := list_append (internal d) label in
    Some {| internal := i; test_labels := i; label_test := fun k => if k =? n then Some (file_strings lines) else label_test d k |}
  end.
(** a file with a sequence of calls *)
Fixpoint set_label_files (calls : list (option (list str) * str)) (d : scope) : scope :=
  match calls with
  | [] => d
  | (f, label) :: calls' => match set_test_label_file f label d with Some d' => set_label_files calls' d' | None => d end
  end.
(** the file of a subdirectory: its scope begins as a copy, and PARENT_SCOPE, :42 and :47, sets all but INTERNAL_TEST_LABELS in the
    directory above *)
Definition subdirectory (calls : list (option (list str) * str)) (above : scope) : scope :=
  let d := set_label_files calls above in
  {| internal := internal above; test_labels := test_labels d; label_test := label_test d |}.

(** check_and_add_tests_label, :51-61.  [vars]: the variables; the left side of IN_LIST is the value of the variable of that name if there is one.
    [current]: the LABELS of the test. *)
Definition check_and_add (vars : str -> option str) (test : str) (tests : option str) (label : str) (current : str) : str :=
  let x := match vars test with Some v => v | None => test end in
  match tests with
  | Some l => if existsb (str_eqb x) (elements l) then fold_left list_append (arguments label) current else current
  | None => current
  end.
(** set_test_labels, :63-78 *)
Fixpoint set_labels_from (vars : str -> option str) (d : scope) (test : str) (index : nat) (labels : list str) (current : str) : str :=
  match labels with
  | [] => current
  | l :: ls => set_labels_from vars d test (index + 1) ls (check_and_add vars test (label_test d index) l current)
  end.
Definition set_test_labels (vars : str -> option str) (d : scope) (test : str) (current : str) : str :=
  set_labels_from vars d test 0 (arguments (test_labels d)) current.
