(** Model of convert_set_to_shared and get_keys,
    cpp_utils/include/cpp_utils/impl/utils.ipp:135-147 and :168-190. *)
From Coq Require Export List Bool Arith.
Export ListNotations.

Section Sets.
Variables (Key : Type) (ltb : Key -> Key -> bool).
(** std::set with the order [ltb], as the list of its elements in order; insert leaves the set as it is
    if it has an equivalent element *)
Fixpoint set_insert (k : Key) (l : list Key) : list Key :=
  match l with
  | [] => [k]
  | x :: r => if ltb k x then k :: l else if ltb x k then x :: set_insert k r else l
  end.

(** utils.ipp:168-190: the map as its entries in the order of iteration, any order for an unordered_map *)
Definition get_keys {Value} (map : list (Key * Value)) : list Key := fold_left (fun ret elem => set_insert (fst elem) ret) map [].
End Sets.
Arguments set_insert {Key}. Arguments get_keys {Key} ltb {Value}.

(** ** Pointers *)
(** the heap: addresses and the object at each one *)
Definition heap (Child : Type) := list (nat * Child).
(** utils.ipp:141-146: one object for each element, at the new address that the allocator chooses;
    std::set orders pointers by address *)
Fixpoint convert_set_to_shared {Child} (fresh : heap Child -> nat) (set : list Child) (h : heap Child) (result : list nat) : heap Child * list nat :=
  match set with
  | [] => (h, result)
  | element :: rest =>
    let a := fresh h in
    convert_set_to_shared fresh rest ((a, element) :: h) (set_insert Nat.ltb a result)
  end.
