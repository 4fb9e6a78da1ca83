(** Vocabulary of the statements about ROS 2 names. *)
From Verif Require Export Str_spec.
From Verif Require Import Str.

(** none of the parts contains the character *)
Definition fresh (c : ascii) (parts : list str) : Prop := Forall (fun p => ~ In c p) parts.
