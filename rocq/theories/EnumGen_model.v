(** Model of the generator of enumerations
    dev_utils/src/automatic_code_generator/cpp/enumeration_builder/enumeration_builder.py.

    - Texts are sequences of ASCII characters.  The functions of Python's str that the generator uses,
      split, strip, replace, join and in, are modelled after their documentation.
    - The current year and the command line, sys.argv, are parameters.  Parsing the command line
      with argparse and writing the file are left out: the arguments are those of generate_file_text.
    - The meaning of the generated C++ code: the list of enumerators and the array of names are
      read from the generated text; the functions are modelled from the text of the template. *)
From Verif Require Export Math_model.
Open Scope list_scope.
Open Scope nat_scope.

(** ** str *)
Fixpoint py_split (sep : ascii) (t : str) : list str :=
  match t with
  | [] => [[]]
  | c :: t' => match py_split sep t' with
               | [] => [[]]
               | x :: l => if Ascii.eqb c sep then [] :: x :: l else (c :: x) :: l
               end
  end.
(** str.isspace for ASCII characters: 9 to 13 and 28 to 32 *)
Definition is_space (c : ascii) : bool := let n := N_of_ascii c in ((9 <=? n) && (n <=? 13) || (28 <=? n) && (n <=? 32))%N.
Fixpoint lstrip (t : str) : str := match t with [] => [] | c :: t' => if is_space c then lstrip t' else t end.
Definition py_strip (t : str) : str := rev (lstrip (rev (lstrip t))).
(** occurrences of a non-empty [old], from left to right; [skip] characters belong to the last one *)
Fixpoint replace_loop (old new : str) (skip : nat) (t : str) : str :=
  match t with
  | [] => []
  | c :: t' =>
      match skip with
      | S k => replace_loop old new k t'
      | O => if prefixb old t then new ++ replace_loop old new (pred (List.length old)) t' else c :: replace_loop old new 0 t'
      end
  end.
Definition py_replace (t old new : str) : str := replace_loop old new 0 t.
Fixpoint py_join (sep : str) (l : list str) : str :=
  match l with
  | [] => []
  | x :: l' => x ++ match l' with [] => [] | _ => sep ++ py_join sep l' end
  end.
Definition py_in (c : ascii) (t : str) : bool := existsb (Ascii.eqb c) t.
Definition newline : ascii := ascii_of_nat 10.

(** ** The generator *)
(** enumeration_builder.py:169-172 *)
Definition get_file_name_from_path (path : str) : str :=
  py_strip (last (py_split "\"%char (last (py_split "/"%char path) [])) []).

(** enumeration_builder.py:175-187; [argv]: sys.argv[1:]; the name of the script is the one in the repository *)
Definition script : str := s "enumeration_builder.py".
Definition add_argument (l : list str) (arg : str) : list str :=
  if py_in "-"%char arg then l ++ [arg] else removelast l ++ [last l [] ++ s " " ++ get_file_name_from_path arg].
Definition get_command_executed (argv : list str) : str :=
  script ++ py_join (newline :: s " *   ") (fold_left add_argument argv [[]]).

(** enumeration_builder.py:190-194 *)
Definition remove_blanks (t : str) : str := py_replace t (s " ") [].
Definition parse_values (values_str : str) : list str :=
  let separator := if py_in ";"%char values_str then ";"%char else ","%char in
  map (fun x => remove_blanks (py_strip x)) (py_split separator values_str).

(** enumeration_builder.py:197-202 *)
Definition replace_in_text (text original replacement : str) : str := py_replace text (s "%" ++ original ++ s "%") replacement.

(** the texts that take the place of %start_namespace%, %end_namespace%, %values%, %quotes_values%, %n_values%:
    enumeration_builder.py:233, :239, :248, :254, :257 *)
Definition start_namespace (namespaces : list str) : str := py_join [newline] (map (fun x => s "namespace " ++ x ++ s " {") namespaces).
Definition end_namespace (namespaces : list str) : str := py_join [newline] (map (fun x => s "} /* namespace " ++ x ++ s " */") (rev namespaces)).
Definition values_text (values : list str) : str := py_join (s "," ++ [newline]) (map (fun x => s "    " ++ x) values).
Definition quotes_text (values : list str) : str := py_join (s "," ++ [newline]) (map (fun x => s "    """ ++ x ++ s """") values).
Definition n_values_text (values : list str) : str := dec (N.of_nat (List.length values)).

(** enumeration_builder.py:210-259 *)
Definition generate_file_text (year : str) (argv : list str) (template_text enumeration_name : str) (values namespaces : list str) (output_file : str) : str :=
  let text := template_text in
  let text := replace_in_text text (s "year") year in
  let text := replace_in_text text (s "output_file") (get_file_name_from_path output_file) in
  let text := replace_in_text text (s "command") (get_command_executed argv) in
  let text := replace_in_text text (s "start_namespace") (start_namespace namespaces) in
  let text := replace_in_text text (s "end_namespace") (end_namespace namespaces) in
  let text := replace_in_text text (s "enum_name") enumeration_name in
  let text := replace_in_text text (s "values") (values_text values) in
  let text := replace_in_text text (s "quotes_values") (quotes_text values) in
  let text := replace_in_text text (s "n_values") (n_values_text values) in
  text.

(** enumeration_builder.py:36-113 *)
Definition TEMPLATE_TEXT : str := s "// Copyright %year% Proyectos y Sistemas de Mantenimiento SL (eProsima).
//
// Licensed under the Apache License, Version 2.0 (the ""License"");
// you may not use this file except in compliance with the License.
// You may obtain a copy of the License at
//
//     http://www.apache.org/licenses/LICENSE-2.0
//
// Unless required by applicable law or agreed to in writing, software
// distributed under the License is distributed on an ""AS IS"" BASIS,
// WITHOUT WARRANTIES OR CONDITIONS OF ANY KIND, either express or implied.
// See the License for the specific language governing permissions and
// limitations under the License.

/**
 * @file %output_file%
 *
 * This is an autogenerated file from command:
 *  %command%
 */

#pragma once

#include <array>
#include <string>
#include <stdexcept>
#include <vector>

%start_namespace%

enum class %enum_name%
{
%values%
};

const std::array<std::string, %n_values%> NAMES_%enum_name% =
{
%quotes_values%
};

inline const std::string& to_string(
        const %enum_name%& e)
{
    return NAMES_%enum_name%[static_cast<int>(e)];
}

inline std::vector<std::string> string_vector_%enum_name%()
{
    return std::vector<std::string> (
        NAMES_%enum_name%.begin(),
        NAMES_%enum_name%.end());
}

inline %enum_name% from_string_%enum_name%(
        const std::string& s)
{
    for (int i = 0; i < %n_values%; i++)
    {
        if (NAMES_%enum_name%[i] == s)
        {
            return static_cast<%enum_name%>(i);
        }
    }
    throw std::invalid_argument(""Incorrect name for enum %enum_name%."");
}

inline std::ostream& operator <<(
        std::ostream& os,
        const %enum_name%& e)
{
    os << to_string(e);
    return os;
}

constexpr const unsigned int N_VALUES_%enum_name% = %n_values%;

%end_namespace%
".

(** ** The generated code *)
(** the enumerators between the braces of the enumeration: names, or names with a decimal number,
    separated by commas, with or without one after the last; None: anything else *)
Definition blank_or_newline (c : ascii) : bool := Ascii.eqb c " "%char || Ascii.eqb c newline.
Definition letter (c : ascii) : bool :=
  let n := N_of_ascii c in ((65 <=? n) && (n <=? 90) || (97 <=? n) && (n <=? 122) || (n =? 95))%N.
Definition digit_character (c : ascii) : bool := let n := N_of_ascii c in ((48 <=? n) && (n <=? 57))%N.
Definition identifier (t : str) : bool :=
  match t with [] => false | c :: t' => letter c && forallb (fun c => letter c || digit_character c) t' end.
Definition number (t : str) : option N :=
  match t with [] => None | _ => if forallb digit_character t then Some (fold_left (fun n c => 10 * n + (N_of_ascii c - 48))%N t 0%N) else None end.
(** [next]: the value of the next enumerator without a number *)
Fixpoint enumerators (pieces : list str) (next : N) : option (list (str * N)) :=
  match pieces with
  | [] => Some []
  | p :: rest =>
      match py_split "="%char p with
      | [name] =>
          if identifier name then option_map (cons (name, next)) (enumerators rest (next + 1)%N)
          else match name, rest with [], [] => Some [] | _, _ => None end
      | [name; value] =>
          match identifier name, number value with
          | true, Some n => option_map (cons (name, n)) (enumerators rest (n + 1)%N)
          | _, _ => None
          end
      | _ => None
      end
  end.
Definition read_enumerators (body : str) : option (list (str * N)) :=
  enumerators (py_split ","%char (filter (fun c => negb (blank_or_newline c)) body)) 0%N.

(** the literals between the braces of the array, without escape sequences *)
Fixpoint read_literals (inside : option str) (t : str) : option (list str) :=
  match t, inside with
  | [], None => Some []
  | [], Some _ => None
  | c :: t', Some x => if Ascii.eqb c """"%char then option_map (cons (rev x)) (read_literals None t')
                       else if Ascii.eqb c "\"%char then None else read_literals (Some (c :: x)) t'
  | c :: t', None => if Ascii.eqb c """"%char then read_literals (Some []) t'
                     else if blank_or_newline c || Ascii.eqb c ","%char then read_literals None t' else None
  end.

Record enumeration := { constants : list (str * N); names : list str }.
(** [None]: the code does not compile or is not modelled *)
Definition read_code (values : list str) : option enumeration :=
  match read_enumerators (values_text values), read_literals None (quotes_text values) with
  | Some cs, Some ns => if Nat.eqb (List.length ns) (List.length values) then Some {| constants := cs; names := ns |} else None
  | _, _ => None
  end.

(** enumeration_builder.py:76-80: the operator [] of std::array does not check the position *)
Definition to_string (e : enumeration) (v : N) : outcome str :=
  match nth_error (names e) (N.to_nat v) with Some t => Ret t | None => UB end.
(** enumeration_builder.py:82-87 *)
Definition string_vector (e : enumeration) : list str := names e.
(** enumeration_builder.py:89-100 *)
Fixpoint from_string_loop (l : list str) (i : N) (t : str) : outcome N :=
  match l with
  | [] => Throw InvalidArgument
  | x :: l' => if str_eqb x t then Ret i else from_string_loop l' (i + 1)%N t
  end.
Definition from_string (e : enumeration) (t : str) : outcome N := from_string_loop (names e) 0%N t.
(** enumeration_builder.py:110 *)
Definition n_values (e : enumeration) : nat := List.length (names e).
