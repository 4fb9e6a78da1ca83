(** What the users of the pool do, and what they may expect. *)
From Verif Require Export ObjPool_model.
From Coq Require Import Arith.

Section Spec.
Variable T : Type.
Variable made : T.
Variable cleared : T -> T.

(** [history k c p out]: some users have borrowed and returned elements, each returning only what
    was lent to it; now the elements [out] are on loan *)
Inductive history (k : class) (c : config) : pool T -> list nat -> Prop :=
| h_start g p : construct made k c g = Ret p -> history k c p []
| h_loan p out e p' : history k c p out -> loan made p = Ret (e, p') -> history k c p' (e :: out)
| h_use p out e v : history k c p out -> In e out -> history k c (use p e v) out
| h_return p out out1 e out2 p' : history k c p out -> out = out1 ++ e :: out2 -> return_loan cleared p e = Ret p' -> history k c p' (out1 ++ out2).

(** The same, with the largest number of elements ever on loan *)
Inductive peak_history (k : class) (c : config) : pool T -> list nat -> nat -> Prop :=
| k_start g p : construct made k c g = Ret p -> peak_history k c p [] 0
| k_loan p out m e p' : peak_history k c p out m -> loan made p = Ret (e, p') -> peak_history k c p' (e :: out) (Nat.max m (S (length out)))
| k_use p out m e v : peak_history k c p out m -> In e out -> peak_history k c (use p e v) out m
| k_return p out m out1 e out2 p' : peak_history k c p out m -> out = out1 ++ e :: out2 -> return_loan cleared p e = Ret p' -> peak_history k c p' (out1 ++ out2) m.

(** An element as new *)
Definition as_new (v : T) : Prop := v = made \/ exists w, v = cleared w.
End Spec.
Arguments history {T} made cleared k c p out.
Arguments peak_history {T} made cleared k c p out m.
Arguments as_new {T} made cleared v.

(** A configuration without maximum *)
Definition small (i b : N) : config := {| initial_size := i; maximum_size := 0; batch_size := b |}.
