(** Model of match_pattern, cpp_utils/src/cpp/utils.cpp:73-84, for POSIX systems.

    - fnmatch is the one of glibc, posix/fnmatch_loop.c, with the flag FNM_NOESCAPE alone and in the
      locale "C": one character is one byte, a backslash is an ordinary character, and '/' and a
      leading '.' are not special.
    - Reading a bracket expression is a parameter: after '[', the set of characters and what follows
      the closing bracket; [None] if it is not terminated, and then '[' is an ordinary character.
    - Windows (PathMatchSpec) is not modelled. *)
From Coq Require Export NArith.
From Verif Require Export Str.

(** std::string::c_str() as fnmatch reads it: up to the first NUL *)
Fixpoint c_str (t : str) : str :=
  match t with
  | [] => []
  | c :: r => if Ascii.eqb c "000" then [] else c :: c_str r
  end.

(** what one element of a pattern demands *)
Inductive item := Character (c : ascii) | Question | Asterisk | Bracket (set : ascii -> bool).

Section Fnmatch.
Variable bracket : str -> option ((ascii -> bool) * str).

(** fnmatch_loop.c, the switch over the next character of the pattern.  The fuel is the length of the
    pattern. *)
Fixpoint items_from (fuel : nat) (p : str) : list item :=
  match fuel, p with
  | S f, c :: r =>
      if Ascii.eqb c "?" then Question :: items_from f r
      else if Ascii.eqb c "*" then Asterisk :: items_from f r
      else if Ascii.eqb c "[" then
        match bracket r with
        | Some (set, r') => Bracket set :: items_from f r'
        | None => Character c :: items_from f r
        end
      else Character c :: items_from f r
  | _, _ => []
  end.
Definition items (p : str) : list item := items_from (length p) p.

Definition accepts (i : item) (c : ascii) : bool :=
  match i with
  | Character x => Ascii.eqb x c
  | Bracket set => set c
  | _ => true
  end.

(** the loop of a recursive call with [ends]: up to the next asterisk (Reached), to the end of both
    (Matched) or a failure *)
Inductive outcome := Matched | Reached (p : list item) (n : str) | Failed.
Fixpoint run (p : list item) (n : str) : outcome :=
  match p with
  | [] => match n with [] => Matched | _ => Failed end
  | Asterisk :: _ => Reached p n
  | i :: p' => match n with c :: n' => if accepts i c then run p' n' else Failed | [] => Failed end
  end.

(** for (--p; n < endp; ++n) if (FCT(p, n, ...) == 0) goto found; *)
Fixpoint attempts (p : list item) (n : str) : outcome :=
  match n with
  | [] => Failed
  | _ :: n' => match run p n with Failed => attempts p n' | o => o end
  end.

(** after an asterisk: further ones are skipped and each '?' takes one character; [None]: there is
    none for it *)
Fixpoint skip_wildcards (p : list item) (n : str) : option (list item * str) :=
  match p with
  | Asterisk :: p' => skip_wildcards p' n
  | Question :: p' => match n with _ :: n' => skip_wildcards p' n' | [] => None end
  | _ => Some (p, n)
  end.

(** the loop of the outermost call *)
Fixpoint loop (fuel : nat) (p : list item) (n : str) : bool :=
  match fuel with
  | 0 => false
  | S f =>
      match p with
      | [] => match n with [] => true | _ => false end
      | Asterisk :: p' =>
          match skip_wildcards p' n with
          | None => false
          | Some ([], _) => true
          | Some (q, n') =>
              match attempts q n' with
              | Matched => true
              | Reached q' n'' => loop f q' n''
              | Failed => false
              end
          end
      | i :: p' => match n with c :: n' => if accepts i c then loop f p' n' else false | [] => false end
      end
  end.
Definition fnmatch (p n : str) : bool := let q := items p in loop (S (length q)) q n.

(** utils.cpp:73-84 *)
Definition match_pattern (pattern text : str) : bool := fnmatch (c_str pattern) (c_str text).
End Fnmatch.

(** The values of FileAccessMode, utils.hpp:46-56, as ints *)
Definition exist : N := 0.
Definition read : N := 4.
Definition write : N := 2.
Definition exec : N := 1.
(** utils.cpp:55-71 *)
Definition mode_or (a b : N) : N := N.lor a b.
Definition mode_and (a b : N) : N := N.land a b.
