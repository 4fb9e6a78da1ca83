(** Model of cpp_utils/include/cpp_utils/memory/impl/InternalPtrData.ipp, OwnerPtr.ipp,
    LesseePtr.ipp and GuardedPtr.ipp, as a transition system: any number of threads use any
    number of owners, lessees and guards.

    The InternalPtrData objects are numbered in the order of their making; each has data of its
    own.  Owners, lessees and guards hold a shared pointer, here the number or [None].
    A destroyed object is left with [None].  A constructor with data is an empty owner and a [Reset].
    The methods of one OwnerPtr are not called by two threads at a time, which would be a data
    race on its shared_ptr: such calls wait in the model.  Making, copying, moving and
    destroying pointers touches objects of one thread only and is one step.
    The exclusive lock is given when nobody has the mutex, the shared one when no
    thread has the exclusive one; a mutex that gives less shared locks has fewer executions.
    [raced] records a read of [reference_] while it is being written, [misused] the use of data
    already destroyed: both are undefined behaviour. *)
From Verif Require Export Threads.

(** InternalPtrData.hpp:118-122.  [present]: reference_ is not null; [destroyed]: how often the deleter was called *)
Record cell := { present : bool; destroyed : nat; owned_by : option nat; sharing : nat; collected : bool }.

(** what follows reset() in a function of OwnerPtr *)
Inductive after :=
| Stop                  (* reset(), the destructor *)
| Renew (null : bool)   (* reset(reference, deleter), :97-105 *)
| Take (o : nat).       (* operator = (OwnerPtr&&), :62 *)

Inductive mpc :=
| MIdle
| MReset (o c : nat) (k : after)   (* before InternalPtrData.ipp:113 *)
| MIn (o c : nat) (k : after)      (* exclusive lock taken, before :116 *)
| MHalf (o c : nat) (k : after)    (* data destroyed, before :117 *)
| MOut (o c : nat) (k : after)     (* before :119 *)
| MShare (c : nat)                 (* lock(), before LesseePtr.ipp:59 *)
| MShareX (c : nat)                (* lock_with_exception(), before :59 *)
| MCheckX (c : nat)                (* its guard made, before :75 *)
| MShareA (c : nat)                (* operator -> and *, before :59 *)
| MCheckA (c : nat)                (* its guard made, before :75 *)
| MRaw (c : nat)                   (* raw pointer read, :44, before its guard is destroyed *)
| MMethod (c : nat)                (* raw pointer returned *)
| MRunning (c : nat).              (* running a method of the data *)

Inductive mevent :=
| EGuard (t c : nat)    (* lock_with_exception has returned a guard *)
| EThrown (t c : nat)   (* ValueAccessException *)
| EThrownNull (t : nat) (* the same, lessee without shared pointer *)
| EArrow (t c : nat)    (* operator -> has returned *)
| EReset (t o : nat)    (* a function of OwnerPtr that resets has returned *)
| ERefused (t o : nat)  (* InitializationException *)
| ELesseeBool (l : nat) (b : bool).

Record mstate := {
  cells : nat -> cell; made : nat;
  owners : list (option nat); lessees : list (option nat); guards : list (option nat);
  raced : bool; misused : bool; mpcs : list mpc; mevents : list mevent }.

Definition minit (n : nat) : mstate :=
  {| cells := fun _ => {| present := false; destroyed := 0; owned_by := None; sharing := 0; collected := false |}; made := 0;
     owners := []; lessees := []; guards := []; raced := false; misused := false; mpcs := repeat MIdle n; mevents := [] |}.

Definition put (f : nat -> cell) (c : nat) (x : cell) : nat -> cell := fun c' => if c' =? c then x else f c'.
Definition mcell (s : mstate) (c : nat) (x : cell) : mstate :=
  {| cells := put (cells s) c x; made := made s; owners := owners s; lessees := lessees s; guards := guards s;
     raced := raced s; misused := misused s; mpcs := mpcs s; mevents := mevents s |}.
Definition mgo (s : mstate) (t : nat) (p : mpc) : mstate :=
  {| cells := cells s; made := made s; owners := owners s; lessees := lessees s; guards := guards s;
     raced := raced s; misused := misused s; mpcs := upd (mpcs s) t p; mevents := mevents s |}.
Definition mowners (s : mstate) (l : list (option nat)) : mstate :=
  {| cells := cells s; made := made s; owners := l; lessees := lessees s; guards := guards s;
     raced := raced s; misused := misused s; mpcs := mpcs s; mevents := mevents s |}.
Definition mlessees (s : mstate) (l : list (option nat)) : mstate :=
  {| cells := cells s; made := made s; owners := owners s; lessees := l; guards := guards s;
     raced := raced s; misused := misused s; mpcs := mpcs s; mevents := mevents s |}.
Definition mguards (s : mstate) (l : list (option nat)) : mstate :=
  {| cells := cells s; made := made s; owners := owners s; lessees := lessees s; guards := l;
     raced := raced s; misused := misused s; mpcs := mpcs s; mevents := mevents s |}.
Definition mflags (s : mstate) (r m : bool) : mstate :=
  {| cells := cells s; made := made s; owners := owners s; lessees := lessees s; guards := guards s;
     raced := raced s || r; misused := misused s || m; mpcs := mpcs s; mevents := mevents s |}.
Definition msay (s : mstate) (e : mevent) : mstate :=
  {| cells := cells s; made := made s; owners := owners s; lessees := lessees s; guards := guards s;
     raced := raced s; misused := misused s; mpcs := mpcs s; mevents := e :: mevents s |}.
(** new InternalPtrData(reference, deleter), :101-108 *)
Definition mnew (s : mstate) : mstate :=
  {| cells := put (cells s) (made s) {| present := true; destroyed := 0; owned_by := None; sharing := 0; collected := false |}; made := S (made s);
     owners := owners s; lessees := lessees s; guards := guards s;
     raced := raced s; misused := misused s; mpcs := mpcs s; mevents := mevents s |}.

Definition with_owner (x : cell) (u : option nat) : cell :=
  {| present := present x; destroyed := destroyed x; owned_by := u; sharing := sharing x; collected := collected x |}.
Definition with_sharing (x : cell) (n : nat) : cell :=
  {| present := present x; destroyed := destroyed x; owned_by := owned_by x; sharing := n; collected := collected x |}.
(** the deleter *)
Definition delete_data (x : cell) : cell :=
  {| present := present x; destroyed := S (destroyed x); owned_by := owned_by x; sharing := sharing x; collected := collected x |}.
Definition null_reference (x : cell) : cell :=
  {| present := false; destroyed := destroyed x; owned_by := owned_by x; sharing := sharing x; collected := collected x |}.
Definition collect_cell (x : cell) : cell :=
  {| present := present x; destroyed := destroyed x; owned_by := owned_by x; sharing := sharing x; collected := true |}.

(** lock, lock_shared are possible *)
Definition may_own (x : cell) : bool := match owned_by x with Some _ => false | None => sharing x =? 0 end.
Definition may_share (x : cell) : bool := match owned_by x with Some _ => false | None => true end.
(** lock_shared, unlock_shared, InternalPtrData.ipp:57-67 *)
Definition share (s : mstate) (c : nat) : mstate := mcell s c (with_sharing (cells s c) (S (sharing (cells s c)))).
Definition unshare (s : mstate) (c : nat) : mstate :=
  match sharing (cells s c) with
  | 0 => mflags s false true                    (* unlocking a mutex that is not locked *)
  | S n => mcell s c (with_sharing (cells s c) n)
  end.

(** the owners in use by a thread *)
Definition uses_owner (o : nat) (p : mpc) : bool :=
  match p with
  | MReset o' _ k | MIn o' _ k | MHalf o' _ k | MOut o' _ k => (o' =? o) || match k with Take o'' => o'' =? o | _ => false end
  | _ => false
  end.
Definition busy (s : mstate) (o : nat) : bool := existsb (uses_owner o) (mpcs s).

(** the end of a function of OwnerPtr, after reset() *)
Definition finish (s : mstate) (t o : nat) (k : after) : mstate :=
  let s := mgo s t MIdle in
  match k with
  | Stop => msay s (EReset t o)
  | Renew true => msay s (ERefused t o)
  | Renew false => msay (mowners (mnew s) (upd (owners s) o (Some (made s)))) (EReset t o)
  | Take o' =>
      match nth_error (owners s) o' with
      | Some r => msay (mowners s (upd (upd (owners s) o r) o' None)) (EReset t o)
      | None => msay s (EReset t o)
      end
  end.

(** a thread calls reset or a function that begins with it, OwnerPtr.ipp:79-88 *)
Definition call_reset (s : mstate) (t o : nat) (k : after) : option mstate :=
  match nth_error (mpcs s) t, nth_error (owners s) o with
  | Some MIdle, Some r =>
      if busy s o || match k with Take o' => busy s o' | _ => false end then None
      else match r with
           | None => Some (finish s t o k)
           | Some c => if present (cells s c) then Some (mgo s t (MReset o c k)) else Some (finish s t o k)
           end
  | _, _ => None
  end.

(** lock, lock_with_exception, operator -> and *, LesseePtr.ipp:41-86 *)
Inductive way := Plain | WithException | Arrow.
Definition call_lock (s : mstate) (t l : nat) (w : way) : option mstate :=
  match nth_error (mpcs s) t, nth_error (lessees s) l with
  | Some MIdle, Some r =>
      match r, w with
      | None, Plain => Some (mguards s (guards s ++ [None]))
      | None, _ => Some (msay s (EThrownNull t))
      | Some c, Plain => Some (mgo s t (MShare c))
      | Some c, WithException => Some (mgo s t (MShareX c))
      | Some c, Arrow => Some (mgo s t (MShareA c))
      end
  | _, _ => None
  end.

(** some use of the data *)
Definition touch (s : mstate) (c : nat) : mstate := mflags s false (negb (destroyed (cells s c) =? 0)).

(** reading [reference_] *)
Definition nulling (c : nat) (p : mpc) : bool := match p with MHalf _ c' _ => c' =? c | _ => false end.
Definition read_reference (s : mstate) (c : nat) : mstate := mflags s (existsb (nulling c) (mpcs s)) false.

(** the next step of thread [t] *)
Definition mrun (s : mstate) (t : nat) : option mstate :=
  match nth_error (mpcs s) t with
  | Some (MReset o c k) => if may_own (cells s c) then Some (mgo (mcell s c (with_owner (cells s c) (Some t))) t (MIn o c k)) else None
  | Some (MIn o c k) =>
      if present (cells s c) then Some (mgo (mcell s c (delete_data (cells s c))) t (MHalf o c k)) else Some (mgo s t (MOut o c k))
  | Some (MHalf o c k) => Some (mgo (mcell s c (null_reference (cells s c))) t (MOut o c k))
  | Some (MOut o c k) =>     (* :119, then OwnerPtr.ipp:86 *)
      let s := mcell s c (with_owner (cells s c) None) in
      Some (finish (mowners s (upd (owners s) o None)) t o k)
  | Some (MShare c) => if may_share (cells s c) then Some (mgo (mguards (share s c) (guards s ++ [Some c])) t MIdle) else None
  | Some (MShareX c) => if may_share (cells s c) then Some (mgo (share s c) t (MCheckX c)) else None
  | Some (MCheckX c) =>
      let s := read_reference s c in
      if present (cells s c) then Some (msay (mgo (mguards s (guards s ++ [Some c])) t MIdle) (EGuard t c))
      else Some (msay (mgo (unshare s c) t MIdle) (EThrown t c))
  | Some (MShareA c) => if may_share (cells s c) then Some (mgo (share s c) t (MCheckA c)) else None
  | Some (MCheckA c) =>
      let s := read_reference s c in
      if present (cells s c) then Some (mgo s t (MRaw c)) else Some (msay (mgo (unshare s c) t MIdle) (EThrown t c))
  | Some (MRaw c) => Some (msay (mgo (unshare s c) t (MMethod c)) (EArrow t c))
  | Some (MMethod c) => Some (mgo (touch s c) t (MRunning c))
  | Some (MRunning c) => Some (mgo (touch s c) t MIdle)
  | _ => None
  end.

(** who keeps an InternalPtrData alive *)
Definition refers (c : nat) (r : option nat) : bool := match r with Some c' => c' =? c | None => false end.
Definition pc_refers (c : nat) (p : mpc) : bool :=
  match p with
  | MReset _ c' _ | MIn _ c' _ | MHalf _ c' _ | MOut _ c' _ | MShare c' | MShareX c' | MCheckX c' | MShareA c' | MCheckA c' | MRaw c' => c' =? c
  | _ => false
  end.
Definition referred (s : mstate) (c : nat) : bool :=
  existsb (refers c) (owners s) || existsb (refers c) (lessees s) || existsb (refers c) (guards s) || existsb (pc_refers c) (mpcs s).

(** the destructor of InternalPtrData, :46-51, when the last shared pointer is gone *)
Definition collect (s : mstate) (c : nat) : option mstate :=
  if (c <? made s) && negb (collected (cells s c)) && negb (referred s c) && may_own (cells s c)
  then let x := cells s c in
       Some (mcell s c (collect_cell (if present x then null_reference (delete_data x) else x)))
  else None.

(** LesseePtr::operator bool, LesseePtr.ipp:88-92: reads reference_ without the mutex *)
Definition lessee_bool (s : mstate) (l : nat) : option mstate :=
  match nth_error (lessees s) l with
  | Some (Some c) => Some (msay (read_reference s c) (ELesseeBool l (present (cells s c))))
  | Some None => Some (msay s (ELesseeBool l false))
  | None => None
  end.

Inductive mlabel :=
| NewOwner                           (* OwnerPtr() *)
| CallReset (t o : nat) (k : after)
| MoveOwner (o : nat)                (* move constructor *)
| Lease (o : nat)                    (* lease(), OwnerPtr.ipp:72-77 *)
| CopyLessee (l : nat) | DropLessee (l : nat) | AskLessee (l : nat)
| CallLock (t l : nat) (w : way)
| MRun (t : nat)
| UseGuard (g : nat)                 (* operator -> and the method, on a guard that is true *)
| MoveGuard (g : nat)                (* move constructor *)
| AssignGuard (g g' : nat)           (* g = std::move(g'), GuardedPtr.hpp:67: the one the compiler makes *)
| DropGuard (g : nat)                (* destructor, GuardedPtr.ipp:34-42 *)
| Collect (c : nat).

Definition mstep (s : mstate) (l : mlabel) : option mstate :=
  match l with
  | NewOwner => Some (mowners s (owners s ++ [None]))
  | CallReset t o k => call_reset s t o k
  | MoveOwner o =>
      match nth_error (owners s) o with
      | Some r => if busy s o then None else Some (mowners s (upd (owners s) o None ++ [r]))
      | None => None
      end
  | Lease o =>
      match nth_error (owners s) o with
      | Some r => if busy s o then None else Some (mlessees s (lessees s ++ [r]))
      | None => None
      end
  | CopyLessee l => match nth_error (lessees s) l with Some r => Some (mlessees s (lessees s ++ [r])) | None => None end
  | DropLessee l => match nth_error (lessees s) l with Some r => Some (mlessees s (upd (lessees s) l None)) | None => None end
  | AskLessee l => lessee_bool s l
  | CallLock t l w => call_lock s t l w
  | MRun t => mrun s t
  | UseGuard g =>
      match nth_error (guards s) g with
      | Some (Some c) => if present (cells s c) then Some (touch (read_reference s c) c) else None
      | _ => None
      end
  | MoveGuard g => match nth_error (guards s) g with Some r => Some (mguards s (upd (guards s) g None ++ [r])) | None => None end
  | AssignGuard g g' =>
      match nth_error (guards s) g, nth_error (guards s) g' with
      | Some _, Some r => if g =? g' then Some s else Some (mguards s (upd (upd (guards s) g r) g' None))
      | _, _ => None
      end
  | DropGuard g =>
      match nth_error (guards s) g with
      | Some (Some c) => Some (mguards (unshare s c) (upd (guards s) g None))
      | Some None => Some s
      | None => None
      end
  | Collect c => collect s c
  end.

Fixpoint msteps (s : mstate) (ls : list mlabel) : option mstate :=
  match ls with
  | [] => Some s
  | l :: ls' => match mstep s l with Some s' => msteps s' ls' | None => None end
  end.
