(** Vocabulary for arithmetic statements. *)
From Coq Require Import ZArith NArith List.
From Verif Require Import Str.
Local Open Scope Z_scope.

(** lowest + (lowest + interval) + ... , [steps] terms *)
Fixpoint progression (lowest interval : Z) (steps : nat) : Z :=
  match steps with
  | O => 0
  | S n => lowest + progression (lowest + interval) interval n
  end.

(** the number written by a string of decimal digits *)
Definition digit_value (c : ascii) : N := (N_of_ascii c - 48)%N.
Definition is_digit (c : ascii) : Prop := (48 <= N_of_ascii c <= 57)%N.
Definition number_of (t : str) : N := fold_left (fun n c => (10 * n + digit_value c)%N) t 0%N.

(** [t] is the usual decimal notation of [n] *)
Definition decimal (n : N) (t : str) : Prop :=
  t <> [] /\ Forall is_digit t /\ number_of t = n /\ (hd "0"%char t = "0"%char -> t = ["0"%char]).
