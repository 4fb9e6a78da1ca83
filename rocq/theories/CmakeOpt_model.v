(** Model of cmake_utils/cmake/project/cmake_options.cmake:44-112.

    The commands of CMake are read as its manual and its source describe them.  Left out: values with semicolons or references, and numbers
    other than 0 and 1 as conditions. *)
From Verif Require Export Str.

(** the normal variables, and the cache: the value, and whether its entry has a type; an entry of the command line has none *)
Record vars := { normal : str -> option str; cached : str -> option (bool * str) }.
Definition value (v : vars) (x : str) : option str :=
  match normal v x with Some t => Some t | None => option_map snd (cached v x) end.
(** if (DEFINED x) *)
Definition defined (v : vars) (x : str) : bool := match value v x with Some _ => true | None => false end.
Definition update {A} (f : str -> A) (x : str) (a : A) : str -> A := fun y => if str_eqb y x then a else f y.
(** set(x t), where t has been expanded; without any value it is unset(x) *)
Definition set (v : vars) (x t : str) : vars :=
  {| normal := update (normal v) x (match t with [] => None | _ => Some t end); cached := cached v |}.
(** ${x} *)
Definition expand (v : vars) (x : str) : str := match value v x with Some t => t | None => [] end.
(** set(x CACHE BOOL doc), without a value.  [keep]: policy CMP0126 is NEW *)
Definition set_cache (keep : bool) (v : vars) (x : str) : vars :=
  let fresh t := {| normal := if keep then normal v else update (normal v) x None; cached := update (cached v) x (Some (true, t)) |} in
  match cached v x with
  | Some (true, _) => v
  | Some (false, t) => fresh t
  | None => fresh []
  end.

(** conditions: if (word); None: there is no word *)
Definition upper (c : ascii) : ascii := let n := nat_of_ascii c in if (97 <=? n) && (n <=? 122) then ascii_of_nat (n - 32) else c.
Definition one_of (l : list string) (t : str) : bool := existsb (fun w => str_eqb (s w) (map upper t)) l.
Definition is_on : str -> bool := one_of ["1"; "ON"; "YES"; "TRUE"; "Y"]%string.
Definition is_off (t : str) : bool :=
  match t with [] => true | _ => one_of ["0"; "OFF"; "NO"; "FALSE"; "N"; "IGNORE"; "NOTFOUND"]%string t || prefixb (rev (s "-NOTFOUND")) (rev t) end.
Definition truth (v : vars) (t : str) : option bool :=
  match t with
  | [] => None
  | _ => Some (if is_on t then true else if is_off t then false else match value v t with Some w => negb (is_off w) | None => false end)
  end.

(** if (NOT DEFINED x) set(x t) *)
Definition default (x t : str) (v : vars) : vars := if defined v x then v else set v x t.

(** the options of the tests and BUILD_ALL, :47-66 *)
Definition part1 (v : vars) : vars :=
  let v := default (s "BUILD_TESTS") (s "OFF") v in   (* :47-49 *)
  let v := default (s "BUILD_DOCS_TESTS") (expand v (s "BUILD_TESTS")) v in   (* :51-53 *)
  let v := default (s "BUILD_TOOL_TESTS") (expand v (s "BUILD_TESTS")) v in   (* :55-57 *)
  let v := default (s "BUILD_LIBRARY_TESTS") (expand v (s "BUILD_TESTS")) v in   (* :59-61 *)
  default (s "BUILD_ALL") (expand v (s "BUILD_TESTS")) v.   (* :64-66 *)
(** BUILD_DOCS, :68-74; None: CMake stops because the condition is malformed, :69 *)
Definition docs_value (v : vars) : option str :=
  match truth v (expand v (s "BUILD_ALL")), truth v (expand v (s "BUILD_DOCS_TESTS")) with
  | Some a, Some b => Some (if a || b then s "ON" else s "OFF")
  | _, _ => None
  end.
Definition part2 (v : vars) : option vars := if defined v (s "BUILD_DOCS") then Some v else option_map (set v (s "BUILD_DOCS")) (docs_value v).
(** those with a constant as their default, :76-102 *)
Definition part3 (v : vars) : vars :=
  let v := default (s "BUILD_TOOL") (s "ON") v in   (* :76-78 *)
  let v := default (s "BUILD_LIBRARY") (s "ON") v in   (* :80-82 *)
  let v := default (s "CODE_COVERAGE") (s "OFF") v in   (* :85-87 *)
  let v := default (s "TSAN_BUILD") (s "OFF") v in   (* :90-92 *)
  let v := default (s "ASAN_BUILD") (s "OFF") v in   (* :95-97 *)
  default (s "CMAKE_BUILD_TYPE") (s "Release") v.   (* :100-102 *)
(** LOG_INFO, :106-110 *)
Definition part4 (keep : bool) (v : vars) : vars :=
  if negb (defined v (s "LOG_INFO")) && str_eqb (expand v (s "CMAKE_BUILD_TYPE")) (s "Debug") then set v (s "LOG_INFO") (s "ON") else set_cache keep v (s "LOG_INFO").
(** configure_cmake_options, :44-112 *)
Definition configure (keep : bool) (v : vars) : option vars := option_map (fun v => part4 keep (part3 v)) (part2 (part1 v)).
