(** Vocabulary of C129. *)
From Verif Require Import Macro_model.

(** the tokens are an expression of the level [k], this one *)
Definition reads (k : nat) (ts : list token) (e : expr) : Prop := exists n, parse n (Level k) ts = Some (e, []).
Definition additive := 2.
Definition conditional := 4.

(** evaluating it changes nothing *)
Fixpoint pure (e : expr) : Prop :=
  match e with
  | ENum _ | EVar _ => True
  | EIncr _ => False
  | EBin _ a b => pure a /\ pure b
  | ECond c a b => pure c /\ pure a /\ pure b
  end.
Definition value (e : expr) (st : nat -> Z) : Z := fst (eval e st).
Definition after (e : expr) (st : nat -> Z) : nat -> Z := snd (eval e st).

(** what [MAX] and [MIN] are for: the tokens stand for an expression with this value, without effects *)
Definition means (ts : list token) (v : (nat -> Z) -> Z) : Prop :=
  exists e, reads conditional ts e /\ forall st, eval e st = (v st, st).
