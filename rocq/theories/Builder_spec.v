(** Vocabulary for builders. *)
From Coq Require Import List.
Import ListNotations.

(** [v] is the last value, in order, one of whose keys is [k] *)
Definition last_registered {Key Value} (l : list (Value * list Key)) (k : Key) (v : Value) : Prop :=
  exists before ks after, l = before ++ (v, ks) :: after /\ In k ks /\
    forall v' ks', In (v', ks') after -> ~ In k ks'.

Definition unregistered {Key Value} (l : list (Value * list Key)) (k : Key) : Prop :=
  forall v ks, In (v, ks) l -> ~ In k ks.
