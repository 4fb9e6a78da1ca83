(** The language of wildcards (C117, C118). *)
From Verif Require Export Glob_model.

(** the texts that one element stands for *)
Definition stands_for (i : item) (t : str) : Prop :=
  match i with
  | Character c => t = [c]
  | Question => exists c, t = [c]
  | Asterisk => True
  | Bracket set => exists c, t = [c] /\ set c = true
  end.
(** a text is one for a pattern if it can be cut into pieces, one for each element *)
Definition in_language (p : list item) (t : str) : Prop := exists pieces, Forall2 stands_for p pieces /\ t = concat pieces.

Definition without_nul (t : str) : Prop := ~ In "000"%char t.
(** what C reads of a text: what is before its first NUL *)
Definition read_as (t u : str) : Prop := without_nul u /\ (t = u \/ exists r, t = u ++ "000"%char :: r).
Definition special (c : ascii) : bool := Ascii.eqb c "?" || Ascii.eqb c "*" || Ascii.eqb c "[".

(** What the theorems need of the bracket expressions: something is consumed, and [c] is the set of
    c for the special characters. *)
Definition shortens (bracket : str -> option ((ascii -> bool) * str)) : Prop :=
  forall r set r', bracket r = Some (set, r') -> length r' < length r.
Definition quotes_special (bracket : str -> option ((ascii -> bool) * str)) : Prop :=
  forall c r, special c = true -> exists set, bracket (c :: "]"%char :: r) = Some (set, r) /\ forall x, set x = true <-> x = c.

(** the pattern for one text: special characters between brackets *)
Definition quoted (t : str) : str := flat_map (fun c => if special c then ["["%char; c; "]"%char] else [c]) t.

(** Bracket expressions with '!', single characters and ranges, in the locale "C" and without
    classes: [first] tells that ']' is an ordinary character still. *)
Definition le (a b : ascii) : bool := (N_of_ascii a <=? N_of_ascii b)%N.
Fixpoint members (fuel : nat) (first : bool) (p : str) (set : ascii -> bool) : option ((ascii -> bool) * str) :=
  match fuel, p with
  | S f, c :: r =>
      if Ascii.eqb c "]" && negb first then Some (set, r)
      else match r with
           | d :: e :: r' =>
               if Ascii.eqb d "-" && negb (Ascii.eqb e "]") then members f false r' (fun x => set x || le c x && le x e)
               else members f false r (fun x => set x || Ascii.eqb x c)
           | _ => members f false r (fun x => set x || Ascii.eqb x c)
           end
  | _, _ => None
  end.
Definition simple_bracket (p : str) : option ((ascii -> bool) * str) :=
  match p with
  | c :: r => if Ascii.eqb c "!" then option_map (fun x => (fun y => negb (fst x y), snd x)) (members (length r) true r (fun _ => false))
              else members (length p) true p (fun _ => false)
  | [] => None
  end.

(** the elements that a pattern consists of *)
Inductive consists_of (bracket : str -> option ((ascii -> bool) * str)) : str -> list item -> Prop :=
| no_element : consists_of bracket [] []
| question r l : consists_of bracket r l -> consists_of bracket ("?"%char :: r) (Question :: l)
| asterisk r l : consists_of bracket r l -> consists_of bracket ("*"%char :: r) (Asterisk :: l)
| bracketed r set r' l : bracket r = Some (set, r') -> consists_of bracket r' l -> consists_of bracket ("["%char :: r) (Bracket set :: l)
| unterminated r l : bracket r = None -> consists_of bracket r l -> consists_of bracket ("["%char :: r) (Character "["%char :: l)
| ordinary c r l : special c = false -> consists_of bracket r l -> consists_of bracket (c :: r) (Character c :: l).
