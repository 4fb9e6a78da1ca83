(** Model of cpp_utils/include/cpp_utils/collection/database/impl/SafeDatabase.ipp, as a
    transition system.

    Keys and values are numbers, for any ordered type and any type: nothing here depends on
    what they are.  The map is the list of its pairs, the keys increasing.  Every access to
    the map takes two steps, its beginning and its end; [raced] records that an access has
    begun during another one and one of them writes, which is undefined behaviour.  [misused]
    records undefined behaviour by unlocking a mutex that is not locked or by the use of an
    iterator whose element has been erased.
    An iterator is its position, [None] for the end; any thread may use it.
    [priority] says whether the shared mutex lets new readers wait while a writer is waiting:
    implementations of std::shared_timed_mutex differ, SafeDatabase.hpp:39-43.
    The overloads with copies, :106-112 and :153-159, call the ones with moves. *)
From Coq Require Export NArith.
From Verif Require Export Threads Lin_spec.

Definition map := list (nat * nat).

(** std::map *)
Fixpoint find_key (m : map) (k : nat) : option nat :=
  match m with
  | [] => None
  | (k', v) :: m' => if k' =? k then Some v else find_key m' k
  end.
Fixpoint insert_key (m : map) (k v : nat) : map :=   (* does nothing if the key is there *)
  match m with
  | [] => [(k, v)]
  | (k', v') :: m' => if k <? k' then (k, v) :: m else if k' =? k then m else (k', v') :: insert_key m' k v
  end.
Fixpoint assign_key (m : map) (k v : nat) : map :=   (* it->second = v *)
  match m with
  | [] => []
  | (k', v') :: m' => if k' =? k then (k, v) :: m' else (k', v') :: assign_key m' k v
  end.
Fixpoint erase_key (m : map) (k : nat) : map :=
  match m with
  | [] => []
  | (k', v') :: m' => if k' =? k then m' else (k', v') :: erase_key m' k
  end.
Definition first_key (m : map) : option nat := match m with [] => None | (k, _) :: _ => Some k end.
Fixpoint next_key (m : map) (k : nat) : option nat :=   (* the first key after k *)
  match m with
  | [] => None
  | (k', _) :: m' => if k <? k' then Some k' else next_key m' k
  end.

Inductive db_op :=
| Add (k v : nat) | Modify (k v : nat) | AddOrModify (k v : nat) | Erase (k : nat)
| Is (k : nat) | At (k : nat) | Size | Find (k : nat) | Begin | End.
Inductive db_res :=
| RBool (b : bool)
| RValue (v : nat)
| RSize (n : N)
| ROutOfRange                 (* std::out_of_range *)
| RIterator (p : option nat). (* an iterator with this position *)

(** the functions that take the mutex for themselves, :42, :54, :71, :136; the others share it *)
Definition writes (o : db_op) : bool := match o with Add _ _ | Modify _ _ | AddOrModify _ _ | Erase _ => true | _ => false end.

(** what each function does to the map and returns *)
Definition perform (m : map) (o : db_op) : map * db_res :=
  match o with
  | Add k v =>                                                                       (* :37-47 *)
      match find_key m k with Some _ => (m, RBool false) | None => (insert_key m k v, RBool true) end
  | Modify k v =>                                                                    (* :49-65 *)
      match find_key m k with None => (m, RBool false) | Some _ => (assign_key m k v, RBool true) end
  | AddOrModify k v =>                                                               (* :131-151 *)
      match find_key m k with None => (insert_key m k v, RBool true) | Some _ => (assign_key m k v, RBool false) end
  | Erase k =>                                                                       (* :67-74 *)
      (erase_key m k, RBool (match find_key m k with Some _ => true | None => false end))
  | Is k => (m, RBool (match find_key m k with Some _ => true | None => false end))  (* :76-83 *)
  | At k => (m, match find_key m k with Some v => RValue v | None => ROutOfRange end)  (* :114-121 *)
  | Size => (m, RSize (N.of_nat (length m) mod 2 ^ 32))                              (* :123-129: unsigned int *)
  | Find k => (m, RIterator (match find_key m k with Some _ => Some k | None => None end))  (* :85-92 *)
  | Begin => (m, RIterator (first_key m))                                            (* :94-98 *)
  | End => (m, RIterator None)                                                       (* :100-104 *)
  end.

Inductive db_pc :=
| DIdle
| DLock (o : db_op)                        (* before locking *)
| DIn (o : db_op)                          (* locked, before the access *)
| DHalf (o : db_op)                        (* during the access *)
| DOut (o : db_op) (r : db_res)            (* before unlocking *)
| DFound (o : db_op) (p : option nat)      (* find: before the iterator's constructor locks, :28 *)
| DGuard (o : db_op) (p : option nat)      (* find: iterator made, before unlocking :89 *)
| DOpen (o : db_op)                        (* begin, end: before the access, not locked *)
| DOpenHalf (o : db_op)                    (* begin, end: during the access *)
| DGot (o : db_op) (p : option nat)        (* begin, end: before the iterator's constructor locks, :28 *)
| DRet (o : db_op) (r : db_res).           (* before returning *)

(** [iters]: the iterators made so far; [None] once destroyed *)
Record dstate := {
  db : map; excl : option nat; shared : nat; iters : list (option (option nat));
  raced : bool; misused : bool; dpcs : list db_pc; devents : list (lev db_op db_res) }.

Definition dinit (n : nat) : dstate :=
  {| db := []; excl := None; shared := 0; iters := []; raced := false; misused := false; dpcs := repeat DIdle n; devents := [] |}.

Definition reading (p : db_pc) : nat := match p with DHalf o => if writes o then 0 else 1 | DOpenHalf _ => 1 | _ => 0 end.
Definition writing (p : db_pc) : nat := match p with DHalf o => if writes o then 1 else 0 | _ => 0 end.
Definition wants_excl (p : db_pc) : nat := match p with DLock o => if writes o then 1 else 0 | _ => 0 end.

Definition dgo (s : dstate) (t : nat) (p : db_pc) : dstate :=
  {| db := db s; excl := excl s; shared := shared s; iters := iters s; raced := raced s; misused := misused s; dpcs := upd (dpcs s) t p; devents := devents s |}.
Definition demit (s : dstate) (e : lev db_op db_res) : dstate :=
  {| db := db s; excl := excl s; shared := shared s; iters := iters s; raced := raced s; misused := misused s; dpcs := dpcs s; devents := e :: devents s |}.
Definition dstore (s : dstate) (m : map) : dstate :=
  {| db := m; excl := excl s; shared := shared s; iters := iters s; raced := raced s; misused := misused s; dpcs := dpcs s; devents := devents s |}.
Definition dlocks (s : dstate) (e : option nat) (n : nat) : dstate :=
  {| db := db s; excl := e; shared := n; iters := iters s; raced := raced s; misused := misused s; dpcs := dpcs s; devents := devents s |}.
Definition diters (s : dstate) (l : list (option (option nat))) : dstate :=
  {| db := db s; excl := excl s; shared := shared s; iters := l; raced := raced s; misused := misused s; dpcs := dpcs s; devents := devents s |}.
Definition dflags (s : dstate) (r m : bool) : dstate :=
  {| db := db s; excl := excl s; shared := shared s; iters := iters s; raced := raced s || r; misused := misused s || m; dpcs := dpcs s; devents := devents s |}.

Definition some_writes (s : dstate) : bool := negb (number_of writing (dpcs s) =? 0).
Definition some_reads (s : dstate) : bool := negb (number_of reading (dpcs s) =? 0).

(** the beginning of an access *)
Definition starts_read (s : dstate) : dstate := dflags s (some_writes s) false.
Definition starts_write (s : dstate) : dstate := dflags s (some_writes s || some_reads s) false.

Section Steps.
Variable priority : bool.

(** lock_shared is possible *)
Definition may_share (s : dstate) : bool :=
  match excl s with Some _ => false | None => if priority then number_of wants_excl (dpcs s) =? 0 else true end.
(** lock is possible *)
Definition may_own (s : dstate) : bool := match excl s with Some _ => false | None => shared s =? 0 end.

(** unlock_shared *)
Definition unshare (s : dstate) : dstate :=
  match shared s with 0 => dflags s false true | S n => dlocks s (excl s) n end.

(** the constructor of the iterator, :22-29 *)
Definition new_iterator (s : dstate) (p : option nat) : dstate :=
  diters (dlocks s (excl s) (S (shared s))) (iters s ++ [Some p]).

Definition dcall (s : dstate) (t : nat) (o : db_op) : option dstate :=
  match nth_error (dpcs s) t with
  | Some DIdle => Some (demit (dgo s t (match o with Begin | End => DOpen o | _ => DLock o end)) (LCall t o))
  | _ => None
  end.

(** the next step of thread [t] *)
Definition drun (s : dstate) (t : nat) : option dstate :=
  match nth_error (dpcs s) t with
  | Some (DLock o) =>
      if writes o then (if may_own s then Some (dgo (dlocks s (Some t) (shared s)) t (DIn o)) else None)
      else (if may_share s then Some (dgo (dlocks s (excl s) (S (shared s))) t (DIn o)) else None)
  | Some (DIn o) => Some (dgo (if writes o then starts_write s else starts_read s) t (DHalf o))
  | Some (DHalf o) =>
      let (m, r) := perform (db s) o in
      Some (demit (dgo (dstore s m) t (match o, r with Find _, RIterator p => DFound o p | _, _ => DOut o r end)) (LDo t o r))
  | Some (DOut o r) => Some (dgo (if writes o then dlocks s None (shared s) else unshare s) t (DRet o r))
  | Some (DFound o p) => if may_share s then Some (dgo (new_iterator s p) t (DGuard o p)) else None
  | Some (DGuard o p) => Some (dgo (unshare s) t (DRet o (RIterator p)))
  | Some (DOpen o) => Some (dgo (starts_read s) t (DOpenHalf o))
  | Some (DOpenHalf o) =>
      match perform (db s) o with
      | (_, RIterator p) => Some (demit (dgo s t (DGot o p)) (LDo t o (RIterator p)))
      | _ => None
      end
  | Some (DGot o p) => if may_share s then Some (dgo (new_iterator s p) t (DRet o (RIterator p))) else None
  | Some (DRet o r) => Some (demit (dgo s t DIdle) (LRet t o r))
  | _ => None
  end.

(** the use of the element at an iterator: it must exist, and nobody be writing *)
Definition touch (s : dstate) (k : nat) : dstate :=
  dflags s (some_writes s) (match find_key (db s) k with Some _ => false | None => true end).
(** operator *, and ++ *)
Definition iter_use (s : dstate) (i : nat) : option dstate :=
  match nth_error (iters s) i with Some (Some (Some k)) => Some (touch s k) | _ => None end.
Definition iter_next (s : dstate) (i : nat) : option dstate :=
  match nth_error (iters s) i with
  | Some (Some (Some k)) => Some (diters (touch s k) (upd (iters s) i (Some (next_key (db s) k))))
  | _ => None
  end.
(** the destructor, :31-35 *)
Definition iter_drop (s : dstate) (i : nat) : option dstate :=
  match nth_error (iters s) i with
  | Some (Some _) => Some (diters (unshare s) (upd (iters s) i None))
  | _ => None
  end.
(** the copy constructor is the one the compiler makes: it does not lock *)
Definition iter_copy (s : dstate) (i : nat) : option dstate :=
  match nth_error (iters s) i with
  | Some (Some p) => Some (diters s (iters s ++ [Some p]))
  | _ => None
  end.

Inductive dlabel := DCall (t : nat) (o : db_op) | DRun (t : nat) | IUse (i : nat) | INext (i : nat) | IDrop (i : nat) | ICopy (i : nat).
Definition dstep (s : dstate) (l : dlabel) : option dstate :=
  match l with
  | DCall t o => dcall s t o | DRun t => drun s t
  | IUse i => iter_use s i | INext i => iter_next s i | IDrop i => iter_drop s i | ICopy i => iter_copy s i
  end.
Fixpoint dsteps (s : dstate) (ls : list dlabel) : option dstate :=
  match ls with
  | [] => Some s
  | l :: ls' => match dstep s l with Some s' => dsteps s' ls' | None => None end
  end.
End Steps.
