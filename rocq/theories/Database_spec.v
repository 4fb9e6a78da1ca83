(** Specification of C38 and C39: a database is a partial function from keys to values. *)
From Verif Require Import Database_model.

Definition content := nat -> option nat.
Definition empty : content := fun _ => None.
(** c' is c, but for k, where it is x *)
Definition changed (c : content) (k : nat) (x : option nat) (c' : content) : Prop :=
  c' k = x /\ forall k', k' <> k -> c' k' = c k'.
Definition same (c c' : content) : Prop := forall k, c' k = c k.
Definition has_size (c : content) (n : nat) : Prop :=
  exists ks, NoDup ks /\ length ks = n /\ forall k, In k ks <-> c k <> None.

Inductive db_spec : content -> db_op -> content -> db_res -> Prop :=
| d_add c k v c' : c k = None -> changed c k (Some v) c' -> db_spec c (Add k v) c' (RBool true)
| d_add_not c k v c' : c k <> None -> same c c' -> db_spec c (Add k v) c' (RBool false)
| d_modify c k v c' : c k <> None -> changed c k (Some v) c' -> db_spec c (Modify k v) c' (RBool true)
| d_modify_not c k v c' : c k = None -> same c c' -> db_spec c (Modify k v) c' (RBool false)
| d_am_added c k v c' : c k = None -> changed c k (Some v) c' -> db_spec c (AddOrModify k v) c' (RBool true)
| d_am_modified c k v c' : c k <> None -> changed c k (Some v) c' -> db_spec c (AddOrModify k v) c' (RBool false)
| d_erase c k c' : c k <> None -> changed c k None c' -> db_spec c (Erase k) c' (RBool true)
| d_erase_not c k c' : c k = None -> same c c' -> db_spec c (Erase k) c' (RBool false)
| d_is c k c' : c k <> None -> same c c' -> db_spec c (Is k) c' (RBool true)
| d_is_not c k c' : c k = None -> same c c' -> db_spec c (Is k) c' (RBool false)
| d_at c k v c' : c k = Some v -> same c c' -> db_spec c (At k) c' (RValue v)
| d_at_not c k c' : c k = None -> same c c' -> db_spec c (At k) c' ROutOfRange
| d_size c n c' : has_size c n -> same c c' -> db_spec c Size c' (RSize (N.of_nat n mod 2 ^ 32))
| d_find c k c' : c k <> None -> same c c' -> db_spec c (Find k) c' (RIterator (Some k))
| d_find_not c k c' : c k = None -> same c c' -> db_spec c (Find k) c' (RIterator None)
| d_begin c k c' : c k <> None -> (forall k', c k' <> None -> k <= k') -> same c c' -> db_spec c Begin c' (RIterator (Some k))
| d_begin_empty c c' : (forall k, c k = None) -> same c c' -> db_spec c Begin c' (RIterator None)
| d_end c c' : same c c' -> db_spec c End c' (RIterator None).

(** the uses allowed to the clients *)
Definition no_copy (l : dlabel) : Prop := match l with ICopy _ => False | _ => True end.
Definition find_only (l : dlabel) : Prop := match l with ICopy _ | DCall _ Begin | DCall _ End => False | _ => True end.

Inductive dreachable (priority : bool) (allowed : dlabel -> Prop) (n : nat) : dstate -> Prop :=
| dr_init : dreachable priority allowed n (dinit n)
| dr_step s l s' : dreachable priority allowed n s -> allowed l -> dstep priority s l = Some s' -> dreachable priority allowed n s'.

(** there is an iterator *)
Definition alive (s : dstate) : Prop := exists i p, nth_error (iters s) i = Some (Some p).
Definition key_of (s : dstate) (k : nat) : Prop := find_key (db s) k <> None.
