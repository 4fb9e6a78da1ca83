(** Vocabulary for trees and sets of pointers. *)
From Coq Require Import List.
From Verif Require Import Tree_model.
Import ListNotations.

(** [path t d n]: a path of [n] edges leads from [t] down to [d] *)
Inductive path {Info} : tree Info -> tree Info -> nat -> Prop :=
| path_here t : path t t 0
| path_down t b d n : In b (branches t) -> path b d n -> path t d (S n).

(** the number of edges of the longest path down from the node *)
Definition is_height {Info} (t : tree Info) (n : nat) : Prop :=
  (exists d, path t d n) /\ forall d m, path t d m -> m <= n.

(** the strict descendants of [t], with their multiplicity, in preorder *)
Inductive descendants {Info} : list (tree Info) -> list (tree Info) -> Prop :=
| desc_nil : descendants [] []
| desc_cons i bs rest lb lr : descendants bs lb -> descendants rest lr ->
    descendants (Node i bs :: rest) (Node i bs :: lb ++ lr).

(** what a pointer points to: nothing, or a value *)
Definition pointed {V} (heap : nat -> V) (p : option nat) : option V := option_map heap p.
