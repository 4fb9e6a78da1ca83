(** Model of cpp_utils/include/cpp_utils/event/impl/EventHandler.ipp and of
    MultipleEventHandler.cpp and impl/MultipleEventHandler.ipp, as a transition system.

    There are any number of handlers, [hs], and of threads; a thread is the stack of the functions
    it is in, the innermost first, since a callback may call functions of handlers.  A callback is
    a number, for a function of the user, or [Forward h], the one that register_event_handler of
    the MultipleEventHandler [h] gives to its handlers, impl/MultipleEventHandler.ipp:32-38.

    [event_mutex_] and [internal_callback_mutex_] are recursive mutexes, taken and released in
    steps of their own.  Everything that is done with [wait_mutex_] locked is one step: nothing
    that is read there is written without it, and at most one of the variables that are read
    without it is written there.  [notify_all] is a step of its own.  Threads blocked in the
    condition variable may wake for no reason, [Spurious].
    The hooks callback_set_nts_, callback_change_nts_ and callback_unset_nts_ do nothing, :219-235:
    the classes that override them have their own models.  Log messages are left out.
    The counter is a uint32_t; the number of waiting threads is taken to be below 2^32. *)
From Coq Require Export NArith.
From Verif Require Export Threads.

(** a recursive mutex: its owner and how many times it is locked *)
Definition rmutex := option (nat * nat).
Definition rlock (m : rmutex) (t : nat) : option rmutex :=
  match m with
  | None => Some (Some (t, 1))
  | Some (u, d) => if u =? t then Some (Some (u, S d)) else None
  end.
Definition runlock (m : rmutex) : rmutex :=
  match m with
  | Some (u, S (S d)) => Some (u, S d)
  | _ => None
  end.

Inductive cb := User (k : nat) | Forward (h : nat).

(** EventHandler, EventHandler.hpp:231-283, constructor :39-46 *)
Record handler := {
  emutex : rmutex;         (* event_mutex_ *)
  imutex : rmutex;         (* internal_callback_mutex_ *)
  is_set : bool;           (* is_callback_set_ *)
  callback : option cb;    (* callback_, None for DEFAULT_CALLBACK_ *)
  count : N;               (* number_of_events_registered_ *)
  waiting : nat            (* threads_waiting_ *)
}.
Definition new_handler : handler := {| emutex := None; imutex := None; is_set := false; callback := None; count := 0; waiting := 0 |}.

Definition with_e (x : handler) (m : rmutex) : handler := {| emutex := m; imutex := imutex x; is_set := is_set x; callback := callback x; count := count x; waiting := waiting x |}.
Definition with_i (x : handler) (m : rmutex) : handler := {| emutex := emutex x; imutex := m; is_set := is_set x; callback := callback x; count := count x; waiting := waiting x |}.
Definition with_set (x : handler) (b : bool) : handler := {| emutex := emutex x; imutex := imutex x; is_set := b; callback := callback x; count := count x; waiting := waiting x |}.
Definition with_callback (x : handler) (c : option cb) : handler := {| emutex := emutex x; imutex := imutex x; is_set := is_set x; callback := c; count := count x; waiting := waiting x |}.
Definition with_count (x : handler) (n : N) : handler := {| emutex := emutex x; imutex := imutex x; is_set := is_set x; callback := callback x; count := n; waiting := waiting x |}.
Definition with_waiting (x : handler) (n : nat) : handler := {| emutex := emutex x; imutex := imutex x; is_set := is_set x; callback := callback x; count := count x; waiting := n |}.

(** where a function is *)
Inductive frame :=
(* set_callback, :48-79: at line 52, 57, 63, 66, and at the end *)
| SLockE (h : nat) (c : cb) | SLockI (h : nat) (c : cb) | SSet (h : nat) (c : cb) | SAssign (h : nat) (c : cb) | SUnlockE (h : nat) (c : cb)
(* unset_callback, :81-118: at line 84, 88, 92, 98, 102, then in awake_all_waiting_threads_nts_,
   :204-217, at line 211, 214, and at the end *)
| ULockE (h : nat) | UTest (h : nat) | ULockI (h : nat) | UClear (h : nat) | UAssign (h : nat) | UNotify (h : nat) | UCheck (h : nat) | UUnlockE (h : nat)
(* wait_for_event, :120-145: at line 124, 126, blocked in 130, awake in 130, at 144 *)
| WTest (h : nat) (n : N) | WEnter (h : nat) (n : N) | WBlocked (h : nat) (n : N) | WNotified (h : nat) (n : N) | WResult (h : nat) (n : N)
(* event_count, :147; reset_event_count, :153; decrement_event_count, :160 *)
| CLoad (h : nat) | RStore (h : nat) | DStore (h : nat)
(* event_occurred_, :177-202: at line 182, 184, in the callback, in the event_occurred_ of
   another handler called by the callback, at line 192, 201, and at the end *)
| ELockI (h : nat) | ETest (h : nat) | ECallback (h : nat) (c : cb) | EForward (h h' : nat) | ECount (h : nat) | ENotify (h : nat) | EUnlockI (h : nat).

(** the handler of a function *)
Definition on (f : frame) : nat :=
  match f with
  | SLockE h _ | SLockI h _ | SSet h _ | SAssign h _ | SUnlockE h _
  | ULockE h | UTest h | ULockI h | UClear h | UAssign h | UNotify h | UCheck h | UUnlockE h
  | WTest h _ | WEnter h _ | WBlocked h _ | WNotified h _ | WResult h _
  | CLoad h | RStore h | DStore h
  | ELockI h | ETest h | ECallback h _ | EForward h _ | ECount h | ENotify h | EUnlockI h => h
  end.

(** the functions of the interface *)
Inductive call := SetCallback (h : nat) (c : cb) | UnsetCallback (h : nat) | WaitForEvent (h : nat) (n : N) | EventCount (h : nat) | ResetEventCount (h : nat)
  | DecrementEventCount (h : nat) | Occur (h : nat).   (* Occur: event_occurred_ or simulate_event_occurred, :170-175 *)

(** what happens; the results of the functions that have one *)
Inductive event :=
| VCall (t : nat) (c : call)      (* a function is called *)
| VCallback (t h : nat) (c : cb)  (* a callback is called *)
| VCounted (t h : nat)            (* the counter is increased *)
| VReset (t h : nat)              (* the counter becomes 0 *)
| VDecrement (t h : nat)          (* the counter is decreased *)
| VSet (t h : nat) (c : cb)       (* a callback is set: is_callback_set_ becomes true *)
| VUnset (t h : nat)              (* the callback is unset: is_callback_set_ becomes false *)
| VSetDone (t h : nat) (c : cb)   (* set_callback returns *)
| VUnsetDone (t h : nat)          (* unset_callback returns *)
| VWaited (t h : nat) (n : N) (b : bool)   (* wait_for_event returns *)
| VRead (t h : nat) (n : N)       (* event_count returns *)
| VAbort (t h : nat).             (* DEFAULT_CALLBACK_ is called, :30-37: the process ends *)

(** the effect of one step of a function: its handler, what replaces it on the stack, what
    happens, whether the threads that wait are woken, whether the callback is assigned *)
Record effect := { handler_now : handler; frames : list frame; happens : list event; wakes : bool; assigns : bool }.
Definition quietly (x : handler) (fs : list frame) : effect := {| handler_now := x; frames := fs; happens := []; wakes := false; assigns := false |}.
Definition saying (x : handler) (fs : list frame) (e : event) : effect := {| handler_now := x; frames := fs; happens := [e]; wakes := false; assigns := false |}.

(** the condition of wait_for_event, :136 *)
Definition condition (x : handler) (n : N) : bool := N.leb n (count x) || negb (is_set x).

Definition fstep (x : handler) (t : nat) (f : frame) : option effect :=
  match f with
  | SLockE h c => match rlock (emutex x) t with Some m => Some (quietly (with_e x m) [SLockI h c]) | None => None end
  | SLockI h c => match rlock (imutex x) t with Some m => Some (quietly (with_i x m) [SSet h c]) | None => None end
  | SSet h c => Some (saying (with_set x true) [SAssign h c] (VSet t h c))
  | SAssign h c => Some {| handler_now := with_i (with_callback x (Some c)) (runlock (imutex x)); frames := [SUnlockE h c]; happens := []; wakes := false; assigns := true |}
  | SUnlockE h c => Some (saying (with_e x (runlock (emutex x))) [] (VSetDone t h c))
  | ULockE h => match rlock (emutex x) t with Some m => Some (quietly (with_e x m) [UTest h]) | None => None end
  | UTest h => Some (quietly x (if is_set x then [ULockI h] else [UUnlockE h]))
  | ULockI h => match rlock (imutex x) t with Some m => Some (quietly (with_i x m) [UClear h]) | None => None end
  | UClear h => Some (saying (with_set x false) [UAssign h] (VUnset t h))
  | UAssign h => Some {| handler_now := with_i (with_callback x None) (runlock (imutex x)); frames := [UNotify h]; happens := []; wakes := false; assigns := true |}
  | UNotify h => Some {| handler_now := x; frames := [UCheck h]; happens := []; wakes := true; assigns := false |}
  | UCheck h => Some (quietly x (if waiting x =? 0 then [UUnlockE h] else [UNotify h]))
  | UUnlockE h => Some (saying (with_e x (runlock (emutex x))) [] (VUnsetDone t h))
  | WTest h n => Some (quietly x (if is_set x then [WEnter h n] else [WResult h n]))
  | WEnter h n => Some (if condition x n then quietly x [WResult h n] else quietly (with_waiting x (S (waiting x))) [WBlocked h n])
  | WBlocked _ _ => None
  | WNotified h n => Some (if condition x n then quietly (with_waiting x (waiting x - 1)) [WResult h n] else quietly x [WBlocked h n])
  | WResult h n => Some (saying x [] (VWaited t h n (N.leb n (count x))))
  | CLoad h => Some (saying x [] (VRead t h (count x)))
  | RStore h => Some (saying (with_count x 0) [] (VReset t h))
  | DStore h => Some (if N.ltb 0 (count x) then saying (with_count x (count x - 1)) [] (VDecrement t h) else quietly x [])
  | ELockI h => match rlock (imutex x) t with Some m => Some (quietly (with_i x m) [ETest h]) | None => None end
  | ETest h =>
      if is_set x then
        match callback x with
        | Some c => Some (saying x [ECallback h c] (VCallback t h c))
        | None => Some (saying x [EUnlockI h] (VAbort t h))     (* the process ends: what follows does not matter *)
        end
      else Some (quietly x [ENotify h])
  | ECallback h (User _) => Some (quietly x [ECount h])     (* the callback returns *)
  | ECallback h (Forward h') => Some (quietly x [ELockI h'; EForward h h'])
  | EForward h _ => Some (quietly x [ECount h])
  | ECount h => Some (saying (with_count x ((count x + 1) mod 4294967296)) [ENotify h] (VCounted t h))
  | ENotify h => Some {| handler_now := x; frames := [EUnlockI h]; happens := []; wakes := true; assigns := false |}
  | EUnlockI h => Some (quietly (with_i x (runlock (imutex x))) [])
  end.

(** notify_all *)
Definition wake (h : nat) (f : frame) : frame := match f with WBlocked h' n => if h' =? h then WNotified h' n else f | _ => f end.
Definition wake_all (h : nat) (b : bool) (l : list (list frame)) : list (list frame) := if b then List.map (List.map (wake h)) l else l.

(** a callback of the handler is running in this function *)
Definition in_callback (h : nat) (f : frame) : bool := match f with ECallback h' _ | EForward h' _ => h' =? h | _ => false end.

Record estate := {
  hs : nat -> handler;
  stacks : list (list frame);
  clobbered : bool;        (* a std::function was assigned while it was running: its captures are destroyed *)
  history : list event     (* newest first *)
}.
Definition einit (n : nat) : estate := {| hs := fun _ => new_handler; stacks := repeat [] n; clobbered := false; history := [] |}.
Definition put (f : nat -> handler) (h : nat) (x : handler) : nat -> handler := fun h' => if h' =? h then x else f h'.

Definition enter (c : call) : frame :=
  match c with
  | SetCallback h k => SLockE h k
  | UnsetCallback h => ULockE h
  | WaitForEvent h n => WTest h n
  | EventCount h => CLoad h
  | ResetEventCount h => RStore h
  | DecrementEventCount h => DStore h
  | Occur h => ELockI h
  end.

Inductive elabel := Call (t : nat) (c : call) | Run (t : nat) | Spurious (t : nat).

(** a thread may call a function when it is in none, or from a callback of the user *)
Definition may_call (fs : list frame) : bool := match fs with [] => true | ECallback _ (User _) :: _ => true | _ => false end.

Definition estep (s : estate) (l : elabel) : option estate :=
  match l with
  | Call t c =>
      match nth_error (stacks s) t with
      | Some fs => if may_call fs then Some {| hs := hs s; stacks := upd (stacks s) t (enter c :: fs); clobbered := clobbered s; history := VCall t c :: history s |} else None
      | None => None
      end
  | Run t =>
      match nth_error (stacks s) t with
      | Some (f :: rest) =>
          let h := on f in
          match fstep (hs s h) t f with
          | Some e =>
              Some {| hs := put (hs s) h (handler_now e);
                      stacks := wake_all h (wakes e) (upd (stacks s) t (frames e ++ rest));
                      clobbered := clobbered s || (assigns e && existsb (in_callback h) rest);
                      history := happens e ++ history s |}
          | None => None
          end
      | _ => None
      end
  | Spurious t =>
      match nth_error (stacks s) t with
      | Some (WBlocked h n :: rest) => Some {| hs := hs s; stacks := upd (stacks s) t (WNotified h n :: rest); clobbered := clobbered s; history := history s |}
      | _ => None
      end
  end.

Fixpoint esteps (s : estate) (ls : list elabel) : option estate :=
  match ls with
  | [] => Some s
  | l :: ls' => match estep s l with Some s' => esteps s' ls' | None => None end
  end.
