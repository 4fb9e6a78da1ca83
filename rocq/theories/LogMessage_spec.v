(** Vocabulary of C133. *)
From Verif Require Import LogMessage_model.

(** the tokens are an expression of a level, this one *)
Definition reads (k : nat) (ts : list token) (e : expr) : Prop := exists n, parse n (Level k) ts = Some (e, []).
Definition additive := 2.
Definition shift := 3.
Definition conditional := 5.

(** a message of items: [i1 << i2 << ...] *)
Fixpoint message (items : list (list token)) : list token :=
  match items with [] => [] | [i] => i | i :: r => i ++ [TShl] ++ message r end.
(** an item: its operators bind tighter than <<, it is a number or a text, and this is what it shows *)
Definition item_shows (decimal : Z -> str) (vars : nat -> Z) (i : list token) (t : str) : Prop :=
  exists e, reads additive i e /\
    ((type_of e = Some Int /\ exists z, (forall out, eval decimal vars e out = (VNum z, out)) /\ t = decimal z) \/
     (type_of e = Some CharPtr /\ forall out, eval decimal vars e out = (VText t, out))).

(** the tokens compile as a statement, and this is what they write *)
Definition writes (decimal : Z -> str) (vars : nat -> Z) (ts : list token) (t : str) : Prop :=
  exists e ty, reads conditional ts e /\ type_of e = Some ty /\ snd (eval decimal vars e []) = t.
Definition compiles (ts : list token) : Prop := exists e ty, reads conditional ts e /\ type_of e = Some ty.
