(** Model of cpp_utils/include/cpp_utils/types/Tree.hpp and types/impl/Tree.ipp, and of the
    functions on sets of pointers of cpp_utils/include/cpp_utils/impl/utils.ipp. *)
From Coq Require Export List Bool Arith.
Export ListNotations.

(** Tree.hpp:52-84: the information of the node and its branches *)
Inductive tree (Info : Type) := Node (info : Info) (branches : list (tree Info)).
Arguments Node {Info}.

Definition branches {Info} (t : tree Info) := match t with Node _ bs => bs end.
Definition info {Info} (t : tree Info) := match t with Node i _ => i end.

(** Tree.ipp:55-81 [add_branch], a branch given as a node *)
Definition add_branch {Info} (t b : tree Info) : tree Info := Node (info t) (branches t ++ [b]).

(** Tree.ipp:83-87 *)
Definition leaf {Info} (t : tree Info) : bool := match branches t with [] => true | _ => false end.

(** Tree.ipp:89-99; the result is an unsigned int, no larger than the real depth *)
Fixpoint depth {Info} (t : tree Info) : nat :=
  match t with Node _ bs => fold_left (fun m b => Nat.max m (depth b)) bs 0 end.

(** Tree.ipp:107-117: [splice] at the beginning *)
Fixpoint all_nodes {Info} (t : tree Info) : list (tree Info) :=
  match t with Node _ bs => fold_left (fun result b => all_nodes b ++ result) bs bs end.

(** ** Sets of pointers.  A pointer is null or an address; the heap gives the values. *)
Section Pointers.
Variables (V : Type) (eqV : V -> V -> bool) (heap : nat -> V).

Definition ptr_eqb (a b : option nat) : bool :=
  match a, b with Some x, Some y => x =? y | None, None => true | _, _ => false end.

(** utils.ipp:78-111 *)
Definition set_contains (set : list (option nat)) (element : option nat) : bool :=
  if existsb (ptr_eqb element) set then true
  else match element with
  | None => false
  | Some e => existsb (fun itr => match itr with Some p => eqV (heap p) (heap e) | None => false end) set
  end.

(** utils.ipp:113-133 *)
Definition sets_equal (set1 set2 : list (option nat)) : bool :=
  if negb (length set1 =? length set2) then false
  else forallb (fun p => set_contains set2 p) set1.
End Pointers.
Arguments set_contains {V}. Arguments sets_equal {V}.
