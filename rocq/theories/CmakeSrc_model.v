(** Model of the choice of source files: compile_library, cmake_utils/cmake/compilation/compile_library.cmake:26-76, compile_tool,
    cmake_utils/cmake/compilation/compile_tool.cmake:25-62, and all_library_sources, cmake_utils/cmake/test/test_utils.cmake:19-38.

    file(GLOB_RECURSE) as in the source of CMake (kwsys/Glob.cxx); its result has no file twice, its order is left out.  Left out: links, file systems that ignore case, names with
    semicolons, everything else that is done with the targets, and BUILD_LIBRARY and BUILD_TOOL, which are on. *)
From Verif Require Export Str.
From Verif Require Import Cmake_model.

(** what is in a directory *)
Inductive node := File | Dir (entries : list (str * node)).
(** a name matches an asterisk and the ending *)
Definition ends (ending name : str) : bool := prefixb (rev ending) (rev name).
(** Glob::RecurseDirectory: the files of all depths whose name matches *)
Fixpoint recurse (ending : str) (n : node) : list (list str) :=
  match n with
  | File => []
  | Dir l => flat_map (fun e : str * node => let (name, n) := e in match n with File => if ends ending name then [[name]] else [] | Dir _ => map (cons name) (recurse ending n) end) l
  end.
(** Glob::ProcessDirectory for [stars] components that any directory matches, and the ending *)
Fixpoint process (stars : nat) (ending : str) (n : node) : list (list str) :=
  match stars, n with
  | 0, _ => recurse ending n
  | S k, Dir l => flat_map (fun e => match snd e with File => [] | Dir _ => map (cons (fst e)) (process k ending (snd e)) end) l
  | S _, File => []
  end.
(** a directory: its path and what is in it; file(GLOB_RECURSE) for patterns in such directories *)
Definition directory := (str * node)%type.
Definition same : forall a b : list str, {a = b} + {a <> b} := list_eq_dec (list_eq_dec ascii_dec).
Definition glob (patterns : list (directory * nat * str)) : list (list str) :=
  nodup same (flat_map (fun p => match p with (d, stars, ending) => map (cons (fst d)) (process stars ending (snd d)) end) patterns).

(** ARGVn inside of functions called by each other, the last first: a function that has fewer arguments sees the variable of its caller *)
Fixpoint argv (n : nat) (calls : list (list str)) : str :=
  match calls with
  | [] => []
  | args :: calls => match nth_error args n with Some a => a | None => argv n calls end
  end.
(** a source file: an argument, or one that was found *)
Inductive source := Given (t : str) | Found (path : list str).
Definition given (t : str) : list source := map Given (arguments t).

(** compile_library.cmake:43-51, compile_tool.cmake:40-48 *)
Definition code (d : directory) : list (directory * nat * str) :=
  [(d, 0, s ".c"); (d, 0, s ".cpp"); (d, 0, s ".cxx"); (d, 1, s ".c"); (d, 1, s ".cpp"); (d, 1, s ".cxx")].
(** compile_library.cmake:59-67 *)
Definition headers (d : directory) : list (directory * nat * str) := [(d, 1, s ".h"); (d, 1, s ".hpp"); (d, 1, s ".ipp")].
(** compile_library, :42-76.  [calls]: the arguments of this call and those before; [outside]: HEADERS_FILES of the caller *)
Definition library (msvc : bool) (outside : str) (calls : list (list str)) (src include : directory) : list source :=
  (if str_eqb (argv 2 calls) [] then map Found (glob (code src)) else given (argv 2 calls)) ++   (* :42-54 *)
  (if msvc then if str_eqb (argv 3 calls) [] then map Found (glob (headers include ++ headers src)) else given (argv 2 calls) else given outside).   (* :57-71 *)
(** compile_tool, :39-51 *)
Definition tool (calls : list (list str)) (src : directory) : list source :=
  if str_eqb (argv 1 calls) [] then map Found (glob (code src)) else given (argv 1 calls).
(** the directories that it adds to targets, :60-62; None: there is no such target, and CMake stops.  [others]: the targets before *)
Definition tool_includes (others : list str) (project module : str) (calls : list (list str)) : option (list (str * list str)) :=
  if str_eqb (argv 2 calls) [] then Some []
  else if existsb (str_eqb project) (module :: others) then Some [(project, arguments (argv 2 calls))] else None.
(** all_library_sources, :21-36: what TEST_SOURCES becomes; [src], [test]: src/cpp and test/TestUtils *)
Definition tested (src test : directory) : list (directory * nat * str) :=
  [(src, 1, s ".c"); (src, 1, s ".cpp"); (src, 1, s ".cxx"); (src, 1, s ".h"); (src, 1, s ".hpp"); (src, 1, s ".hxx"); (test, 1, s ".cpp"); (test, 0, s ".cpp")].
Definition test_sources (calls : list (list str)) (src test : directory) : list source :=
  given (argv 0 calls) ++ (if str_eqb (argv 1 calls) [] then map Found (glob (tested src test)) else given (argv 1 calls)).
