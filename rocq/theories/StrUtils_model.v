(** Model of the string helpers of cpp_utils/src/cpp/utils.cpp. *)
From Coq Require Export NArith.
From Verif Require Export Str.

(** utils.cpp:258-273 [replace_first]: (returned flag, new value of [st]) *)
Definition replace_first (st to_replace replace_by : str) : bool * str :=
  match sfind to_replace st with
  | None => (false, st)
  | Some pos => (true, replace_at st pos (length to_replace) replace_by)
  end.

(** utils.cpp:275-286 [replace_all]: the [while] loop, one unit of fuel per
    evaluation of its condition.  [None] = still running.  The counter is an
    [unsigned int]. *)
Fixpoint replace_all_loop (fuel : nat) (st to_replace replace_by : str) (replacements : N)
  : option (str * N) :=
  match fuel with
  | 0 => None
  | S fuel' =>
      match replace_first st to_replace replace_by with
      | (false, st') => Some (st', replacements)
      | (true, st') =>
          replace_all_loop fuel' st' to_replace replace_by ((replacements + 1) mod 2 ^ 32)%N
      end
  end.

Definition replace_all (fuel : nat) (st to_replace replace_by : str) : option (str * N) :=
  replace_all_loop fuel st to_replace replace_by 0.

(** utils.cpp:288-299 [strip_str]: the set is given as the list of its elements
    in iteration order; each [replace_all] gets [fuel]. *)
Fixpoint strip_loop (fuel : nat) (to_strip replace_by : str) (undesired : list str) (replacements : N)
  : option (str * N) :=
  match undesired with
  | [] => Some (to_strip, replacements)
  | u :: rest =>
      match replace_all fuel to_strip u replace_by with
      | None => None
      | Some (st', n) => strip_loop fuel st' replace_by rest ((replacements + n) mod 2 ^ 32)%N
      end
  end.

Definition strip_str (fuel : nat) (to_strip replace_by : str) (undesired : list str) : option (str * N) :=
  strip_loop fuel to_strip replace_by undesired 0.

(** utils.hpp:260-263: default arguments of [strip_str]; std::set iterates in
    lexicographic order, "\n" (10) before "\r" (13) *)
Definition newline : ascii := ascii_of_nat 10.
Definition carriage_return : ascii := ascii_of_nat 13.
Definition strip_str_default (fuel : nat) (to_strip : str) : option (str * N) :=
  strip_str fuel to_strip [] [[newline]; [carriage_return]].

(** utils.cpp:346-361 [split_string(string, string)]: the loop, one unit of fuel
    per evaluation of its condition.  [start] and [end] are [int] in the code:
    the model is faithful for sources shorter than 2^31 bytes. *)
Fixpoint split_loop (fuel : nat) (source delimiter : str) (start : nat) : option (list str) :=
  match fuel with
  | 0 => None
  | S fuel' =>
      match sfind_from delimiter source start with
      | Some end_ =>
          match split_loop fuel' source delimiter (end_ + length delimiter) with
          | Some rest => Some (substr source start (end_ - start) :: rest)
          | None => None
          end
      | None => Some [substr_to_end source start]
      end
  end.

Definition split_string (fuel : nat) (source delimiter : str) : option (list str) :=
  split_loop fuel source delimiter 0.

(** utils.cpp:333-344 [split_string(vector, string)] *)
Fixpoint split_strings (fuel : nat) (sources : list str) (delimiter : str) : option (list str) :=
  match sources with
  | [] => Some []
  | x :: rest =>
      match split_string fuel x delimiter, split_strings fuel rest delimiter with
      | Some a, Some b => Some (a ++ b)
      | _, _ => None
      end
  end.

(** utils.cpp:321-331 [split_string(string, set)]; the set as the list of its
    elements in iteration order *)
Fixpoint split_set_loop (fuel : nat) (result : list str) (delimiters : list str) : option (list str) :=
  match delimiters with
  | [] => Some result
  | d :: rest =>
      match split_strings fuel result d with
      | Some r => split_set_loop fuel r rest
      | None => None
      end
  end.

Definition split_string_set (fuel : nat) (source : str) (delimiters : list str) : option (list str) :=
  split_set_loop fuel [source] delimiters.

(** utils.cpp:106-124 [to_lowercase], [to_uppercase]: [std::tolower] and
    [std::toupper] of the "C" locale on the byte as [unsigned char] *)
Definition tolower (c : ascii) : ascii :=
  let n := N_of_ascii c in
  if (65 <=? n)%N && (n <=? 90)%N then ascii_of_N (n + 32) else c.
Definition toupper (c : ascii) : ascii :=
  let n := N_of_ascii c in
  if (97 <=? n)%N && (n <=? 122)%N then ascii_of_N (n - 32) else c.
Definition to_lowercase (st : str) : str := map tolower st.
Definition to_uppercase (st : str) : str := map toupper st.
