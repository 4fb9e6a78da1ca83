(** Command lines written by a user. *)
From Verif Require Export Str_spec.
From Verif Require Import Str.

(** an argument, between double quotes or not *)
Record argument := { quoted : bool; value : str }.

Definition dquote : ascii := ascii_of_nat 34.
Definition blank : ascii := ascii_of_nat 32.

Definition write (a : argument) : str :=
  if quoted a then [dquote] ++ value a ++ [dquote] else value a.

Definition write_line (args : list argument) : str := join [blank] (map write args).

(** no double quotes inside; spaces only between quotes *)
Definition writable (a : argument) : Prop :=
  ~ In dquote (value a) /\ (quoted a = false -> ~ In blank (value a)).
Definition leading_space (a : argument) : Prop := quoted a = true /\ exists t, value a = blank :: t.
