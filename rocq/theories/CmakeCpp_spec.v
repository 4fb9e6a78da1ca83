(** Specification of C147 and C148: the packages and the settings of C++, cmake_utils/README.md:95-106. *)
From Verif Require Import Str_spec CmakeOpt_model CmakeSet_spec CmakeCpp_model.

(** the elements of a list whose text is [t] *)
Definition simple (t : str) : Prop := t <> [] /\ forall c, In c t -> ~ In c (s ";[]\").
Inductive list_of : str -> list str -> Prop :=
| list_empty : list_of [] []
| list_one t : simple t -> list_of t [t]
| list_more t r a l : simple t -> list_of r (a :: l) -> list_of (t ++ s ";" ++ r) (t :: a :: l).

(** a version: numbers with points between them *)
Inductive version : str -> nat -> Prop :=
| version_one n : n <> [] -> Forall (fun c => In c (s "0123456789")) n -> version n 1
| version_more n t k : n <> [] -> Forall (fun c => In c (s "0123456789")) n -> version t k -> version (n ++ s "." ++ t) (S k).
Definition not_zero (t : str) : Prop := exists c, In c (s "123456789") /\ In c t.
Definition minimum_version (p : str) : str := p ++ s "_MINIMUM_VERSION".

(** a variable that a condition takes for true *)
Definition enabled (v : vars) (x : str) : Prop := exists t, value v x = Some t /\ ~ false_text t.
(** the call of find_package for a package: a version of one or two numbers is asked for if it is not zero, a longer one only if there happens to be a
    variable of that name *)
Inductive asked (v : vars) (p : str) : call -> Prop :=
| asked_unset : (forall t, value v (minimum_version p) = Some t -> t = []) -> asked v p (p, None)
| asked_short t k : value v (minimum_version p) = Some t -> version t k -> k <= 2 -> not_zero t -> asked v p (p, Some t)
| asked_zero t k : value v (minimum_version p) = Some t -> version t k -> k <= 2 -> ~ not_zero t -> asked v p (p, None)
| asked_long t k : value v (minimum_version p) = Some t -> version t k -> 2 < k -> ~ enabled v t -> asked v p (p, None)
| asked_variable t k : value v (minimum_version p) = Some t -> version t k -> 2 < k -> enabled v t -> asked v p (p, Some t).
(** minimum versions are versions or unset *)
Definition sensible (v : vars) (p : str) : Prop := forall t, value v (minimum_version p) = Some t -> t = [] \/ exists k, version t k.

(** the texts of a version of C++, and the standard *)
Definition standards : list (str * str) :=
  [(s "11", s "11"); (s "C++11", s "11"); (s "14", s "14"); (s "C++14", s "14"); (s "17", s "17"); (s "C++17", s "17"); (s "20", s "20"); (s "C++20", s "20")].

(** the families of compilers *)
Definition clang (c : compiler) : Prop := exists t p, (t = c_id c \/ t = cxx_id c) /\ (p = s "Clang" \/ p = s "clang") /\ contains t p.
Definition checked (c : compiler) : Prop := gnucxx c = true \/ clang_var c = true \/ contains (cxx_id c) (s "Clang").

(** the flags of each option, for Clang and for GCC *)
Definition instruments_table : list (str * (str * str)) :=
  [(s "CODE_COVERAGE", (s " -fprofile-instr-generate -fcoverage-mapping", s " --coverage -fprofile-arcs -ftest-coverage"));
   (s "TSAN_BUILD", (s " -fsanitize=thread", s " -fsanitize=thread -fno-omit-frame-pointer"));
   (s "ASAN_BUILD", (s " -fsanitize=address", s " -fsanitize=address -fno-omit-frame-pointer"))].
(** the flags that are added for the options that are enabled *)
Inductive added (v : vars) (c : compiler) : list (str * (str * str)) -> str -> Prop :=
| added_none : added v c [] []
| added_off x f l t : ~ enabled v x -> added v c l t -> added v c ((x, f) :: l) t
| added_clang x f g l t : enabled v x -> clang c -> added v c l t -> added v c ((x, (f, g)) :: l) (f ++ t)
| added_gcc x f g l t : enabled v x -> ~ clang c -> gnucxx c = true -> added v c l t -> added v c ((x, (f, g)) :: l) (g ++ t).
(** the variables that are set *)
Definition set_variables : list str := [s "CMAKE_BUILD_TYPE"; s "BUILD_SHARED_LIBS"; s "CMAKE_CXX_STANDARD"; s "CMAKE_C_FLAGS"; s "CMAKE_CXX_FLAGS"].
(** why the configuration stops *)
Inductive stops (comp : compiler) (found : call -> bool) (v : vars) (names : list str) : Prop :=
| stops_version t : value v (s "MODULE_CPP_VERSION") = Some t -> ~ (exists n, In (t, n) standards) -> stops comp found v names
| stops_standard t n : value v (s "MODULE_CPP_VERSION") = Some t -> In (t, n) standards -> checked comp -> accepts comp (s "-std=c++" ++ n) = false -> stops comp found v names
| stops_package p c : In p names -> asked v p c -> found c = false -> stops comp found v names
| stops_compiler x : In x [s "CODE_COVERAGE"; s "TSAN_BUILD"; s "ASAN_BUILD"] -> enabled v x -> ~ clang comp -> gnucxx comp = false -> stops comp found v names
| stops_both : enabled v (s "TSAN_BUILD") -> enabled v (s "ASAN_BUILD") -> stops comp found v names.
