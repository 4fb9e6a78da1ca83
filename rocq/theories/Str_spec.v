(** Vocabulary of the statements about strings. *)
From Verif Require Import Str.

(** [p] occurs somewhere in [t] *)
Definition contains (t p : str) : Prop := exists u v, t = u ++ p ++ v.

(** [u] is what stands before the leftmost occurrence of [p] in [t], [v] what follows it *)
Definition leftmost (t p u v : str) : Prop :=
  t = u ++ p ++ v /\
  forall u' v', t = u' ++ p ++ v' -> length u <= length u'.

(** [t.starts_with(p)], [t.ends_with(p)] *)
Definition starts_with (t p : str) : Prop := exists v, t = p ++ v.
Definition ends_with (t p : str) : Prop := exists u, t = u ++ p.

(** joining pieces with a separator between consecutive ones *)
Fixpoint join (sep : str) (l : list str) : str :=
  match l with
  | [] => []
  | [x] => x
  | x :: l' => x ++ sep ++ join sep l'
  end.
