(** Specification of C149: the tests of GoogleTest, and its filter as its documentation describes it. *)
From Verif Require Export Str.

(** a filter is a list of patterns with : between them; none of ours has negative ones *)
Inductive glob : str -> str -> Prop :=
| glob_end : glob [] []
| glob_star p t u : glob p u -> glob ("*"%char :: p) (t ++ u)
| glob_one c p u : glob p u -> glob ("?"%char :: p) (c :: u)
| glob_char c p u : c <> "*"%char -> c <> "?"%char -> glob p u -> glob (c :: p) (c :: u).
Inductive patterns : str -> list str -> Prop :=
| patterns_one p : ~ In ":"%char p -> ~ In "-"%char p -> patterns p [p]
| patterns_more p f l : ~ In ":"%char p -> ~ In "-"%char p -> patterns f l -> patterns (p ++ s ":" ++ f) (p :: l).
(** whether the executable runs a test when it has these arguments *)
Inductive runs : list str -> str -> Prop :=
| runs_all full : runs [] full
| runs_filter f l p full : patterns f l -> In p l -> glob p full -> runs [s "--gtest_filter=" ++ f] full.

(** identifiers of C++ *)
Definition identifier (t : str) : Prop := t <> [] /\ Forall (fun c => In c (s "abcdefghijklmnopqrstuvwxyzABCDEFGHIJKLMNOPQRSTUVWXYZ0123456789_")) t.
(** the full names of the tests of a case: TEST and TEST_F, TEST_P of each instance, TYPED_TEST of each type *)
Inductive full_name (suite case : str) : str -> Prop :=
| full_plain : full_name suite case (suite ++ s "." ++ case)
| full_typed i : identifier i -> full_name suite case (suite ++ s "/" ++ i ++ s "." ++ case)
| full_instance p i : identifier p -> identifier i -> full_name suite case (p ++ s "/" ++ suite ++ s "." ++ case ++ s "/" ++ i).
(** TYPED_TEST_P of each instance and type *)
Definition typed_instance (suite case p i : str) : str := p ++ s "/" ++ suite ++ s "/" ++ i ++ s "." ++ case.
(** a list of cases, as the text of a list of CMake *)
Inductive case_list : str -> list str -> Prop :=
| cases_one c : identifier c -> case_list c [c]
| cases_more c t l : identifier c -> case_list t l -> case_list (c ++ s ";" ++ t) (c :: l).
