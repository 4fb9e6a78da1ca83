(** Vocabulary of C131. *)
From Coq Require Import List Sorting.Sorted.
From Verif Require Import Convert_model.

(** the object at an address *)
Fixpoint object {Child} (h : heap Child) (a : nat) : option Child :=
  match h with [] => None | (b, x) :: h' => if Nat.eqb a b then Some x else object h' a end.

(** the allocator gives addresses that are not in use *)
Definition allocator {Child} (fresh : heap Child -> nat) : Prop := forall h, ~ In (fresh h) (map fst h).

Section Order.
Variables (Key : Type) (ltb : Key -> Key -> bool).
(** a strict weak order, as std::set needs *)
Definition weak_order : Prop := (forall x, ltb x x = false) /\ (forall x y z, ltb x y = true -> ltb y z = true -> ltb x z = true) /\
  (forall x y z, ltb x y = false -> ltb y x = false -> ltb y z = false -> ltb z y = false -> ltb x z = false /\ ltb z x = false).
Definition equivalent (x y : Key) : Prop := ltb x y = false /\ ltb y x = false.
(** no two different keys are equivalent *)
Definition exact_order : Prop := forall x y, equivalent x y -> x = y.
Definition in_order (l : list Key) : Prop := StronglySorted (fun x y => ltb x y = true) l.
End Order.
Arguments weak_order {Key}. Arguments equivalent {Key}. Arguments exact_order {Key}. Arguments in_order {Key}.
