(** Model of cpp_utils/include/cpp_utils/event/impl/SignalManager.ipp and SignalEventHandler.ipp,
    as a transition system: the manager of one signal, its thread, any number of signal handlers
    and any number of threads of the program.

    - A signal may arrive at any time in any thread, [Arrive]: the two statements of
      signal_received_ are two steps, [Arrive] and [Notify].
    - active_callbacks_mutex_ is locked across steps only by the thread of the manager; what
      register_callback and unregister_callback do with it is one step, possible when it is free.
      last_id_mutex_ is only locked inside it and is left out.
    - signal_received_cv_mutex_ is locked across steps only by the thread of the manager: it is
      released in the wait and at the end of an iteration, so it is kept during the callbacks.
    - The parts of EventHandler that matter here, EventHandler.ipp:48-118 and :177-202, are its
      two mutexes and is_callback_set_; the rest is in Event_model.  The recursion of its mutexes
      is left out: threads of the program do not call functions from callbacks here; the thread of
      the manager may, [Nested], and then needs active_callbacks_mutex_, that it has locked.
    - Log messages, the creation of the instance and Windows are left out. *)
From Coq Require Export NArith.
From Verif Require Export Threads.

(** 2^32: UniqueCallbackId, SignalManager.hpp:49, and signals_received_, :190, are uint32_t *)
Definition W : N := 4294967296.

(** what is registered: any function, or the one of the SignalEventHandler [h],
    SignalEventHandler.ipp:64-66 *)
Inductive fn := Raw (k : nat) | Of (h : nat).

(** active_callbacks_, std::map: assignment and erase *)
Fixpoint map_put (m : list (N * fn)) (id : N) (f : fn) : list (N * fn) :=
  match m with
  | [] => [(id, f)]
  | (i, g) :: m' => if N.eqb id i then (id, f) :: m' else if N.ltb id i then (id, f) :: m else (i, g) :: map_put m' id f
  end.
Fixpoint map_has (m : list (N * fn)) (id : N) : bool :=
  match m with
  | [] => false
  | (i, _) :: m' => N.eqb id i || map_has m' id
  end.
Fixpoint map_erase (m : list (N * fn)) (id : N) : list (N * fn) :=
  match m with
  | [] => []
  | (i, g) :: m' => if N.eqb id i then m' else (i, g) :: map_erase m' id
  end.

(** where the thread of the manager is, SignalManager.ipp:139-180 *)
Inductive mpc :=
| MLoop        (* :156 *)
| MLock        (* :158 *)
| MTest        (* :163 *)
| MTest2       (* :164 *)
| MBlock       (* the condition was false, not blocked yet *)
| MSleep       (* blocked *)
| MWake        (* awake, without the mutex *)
| MStop        (* :167 *)
| MCount       (* :171 *)
| MTake        (* :173 *)
| MDispatch    (* :142 *)
| MCall (rest : list (N * fn))            (* :147 *)
| MWant (h : nat) (rest : list (N * fn))  (* in event_occurred_, EventHandler.ipp:182 *)
| MIn (f : fn) (rest : list (N * fn))     (* in the callback *)
| MNested (f : fn) (rest : list (N * fn)) (* in the callback, in a function of the manager: :83 or :98 *)
| MEnded.

(** where a thread of the program is *)
Inductive cpc :=
| CIdle
| CRegister (f : fn)        (* :83 *)
| CUnregister (id : N)      (* :98 *)
(* set_callback of a signal handler: EventHandler.ipp:52, :57-66, SignalEventHandler.ipp:62, :64, EventHandler.ipp:79 *)
| SLock (h : nat) | SSet (h : nat) | SFlag (h : nat) | SRegister (h : nat) | SUnlock (h : nat)
(* unset_callback of a signal handler: EventHandler.ipp:84, :88-102, SignalEventHandler.ipp:73, :75, EventHandler.ipp:118 *)
| ULock (h : nat) | UClear (h : nat) | UFlag (h : nat) | UUnregister (h : nat) | UUnlock (h : nat)
(* simulate_event_occurred of a signal handler: EventHandler.ipp:182, in the callback *)
| ELock (h : nat) | EIn (h : nat)
(* destructor: SignalManager.ipp:67-70, :72, :73 *)
| DLock | DNotify | DJoin | DDone.

Inductive scall := Register (f : nat) | Unregister (id : N) | SetCallback (h : nat) | UnsetCallback (h : nat) | Simulate (h : nat) | Destroy.

Inductive sevent :=
| VArrive                      (* a signal arrives: signals_received_ is increased *)
| VLost                        (* a notification when the thread has tested signals_received_ and is not blocked yet *)
| VTake                        (* signals_received_ is decreased *)
| VDispatch                    (* active_callbacks_mutex_ is locked to call the callbacks *)
| VCall (id : N) (f : fn)      (* a registered function is called *)
| VFinished                    (* all were called *)
| VRegistered (t : nat) (id : N) (f : fn)
| VUnregistered (t : nat) (id : N)
| VThrow (t : nat) (id : N)    (* InconsistencyException, :102; in a signal handler the process ends: noexcept *)
| VSet (t h : nat)             (* set_callback of a signal handler returns *)
| VUnset (t h : nat)           (* unset_callback of a signal handler returns *)
| VDestroyed (t : nat).        (* the destructor returns *)

(** a SignalEventHandler *)
Record sig_handler := { emutex : bool; imutex : bool; is_set : bool; in_manager : bool; callback_id : N }.
Definition new_handler : sig_handler := {| emutex := false; imutex := false; is_set := false; in_manager := false; callback_id := 0 |}.
Definition with_e (x : sig_handler) (b : bool) := {| emutex := b; imutex := imutex x; is_set := is_set x; in_manager := in_manager x; callback_id := callback_id x |}.
Definition with_i (x : sig_handler) (b : bool) := {| emutex := emutex x; imutex := b; is_set := is_set x; in_manager := in_manager x; callback_id := callback_id x |}.
Definition with_set (x : sig_handler) (b : bool) := {| emutex := emutex x; imutex := imutex x; is_set := b; in_manager := in_manager x; callback_id := callback_id x |}.
Definition with_manager (x : sig_handler) (b : bool) := {| emutex := emutex x; imutex := imutex x; is_set := is_set x; in_manager := b; callback_id := callback_id x |}.
Definition with_id (x : sig_handler) (id : N) := {| emutex := emutex x; imutex := imutex x; is_set := is_set x; in_manager := in_manager x; callback_id := id |}.

Record sstate := {
  received : N;                (* signals_received_ *)
  notifying : nat;             (* signals that have been counted and have not notified yet *)
  stop : bool;                 (* signal_handler_thread_stop_ *)
  cv_locked : bool;            (* signal_received_cv_mutex_ *)
  manager : mpc;
  callbacks : list (N * fn);   (* active_callbacks_ *)
  cb_locked : bool;            (* active_callbacks_mutex_ *)
  last_id : N;                 (* current_last_id_ *)
  hs : nat -> sig_handler;
  clients : list cpc;
  history : list sevent }.     (* newest first *)

(** constructor, SignalManager.ipp:50-62 *)
Definition sinit (n : nat) : sstate :=
  {| received := 0; notifying := 0; stop := false; cv_locked := false; manager := MLoop; callbacks := []; cb_locked := false; last_id := 0;
     hs := fun _ => new_handler; clients := repeat CIdle n; history := [] |}.

Definition set_received (s : sstate) (n : N) (k : nat) := {| received := n; notifying := k; stop := stop s; cv_locked := cv_locked s; manager := manager s; callbacks := callbacks s; cb_locked := cb_locked s; last_id := last_id s; hs := hs s; clients := clients s; history := history s |}.
Definition set_stop (s : sstate) := {| received := received s; notifying := notifying s; stop := true; cv_locked := cv_locked s; manager := manager s; callbacks := callbacks s; cb_locked := cb_locked s; last_id := last_id s; hs := hs s; clients := clients s; history := history s |}.
Definition set_manager (s : sstate) (p : mpc) (cv cbl : bool) := {| received := received s; notifying := notifying s; stop := stop s; cv_locked := cv; manager := p; callbacks := callbacks s; cb_locked := cbl; last_id := last_id s; hs := hs s; clients := clients s; history := history s |}.
Definition set_callbacks (s : sstate) (m : list (N * fn)) (id : N) := {| received := received s; notifying := notifying s; stop := stop s; cv_locked := cv_locked s; manager := manager s; callbacks := m; cb_locked := cb_locked s; last_id := id; hs := hs s; clients := clients s; history := history s |}.
Definition set_handler (s : sstate) (h : nat) (x : sig_handler) := {| received := received s; notifying := notifying s; stop := stop s; cv_locked := cv_locked s; manager := manager s; callbacks := callbacks s; cb_locked := cb_locked s; last_id := last_id s; hs := fun h' => if h' =? h then x else hs s h'; clients := clients s; history := history s |}.
Definition set_client (s : sstate) (t : nat) (p : cpc) := {| received := received s; notifying := notifying s; stop := stop s; cv_locked := cv_locked s; manager := manager s; callbacks := callbacks s; cb_locked := cb_locked s; last_id := last_id s; hs := hs s; clients := upd (clients s) t p; history := history s |}.
Definition say (s : sstate) (e : sevent) := {| received := received s; notifying := notifying s; stop := stop s; cv_locked := cv_locked s; manager := manager s; callbacks := callbacks s; cb_locked := cb_locked s; last_id := last_id s; hs := hs s; clients := clients s; history := e :: history s |}.

(** notify_one and notify_all: at most one thread waits *)
Definition notify (s : sstate) : sstate :=
  match manager s with
  | MSleep => set_manager s MWake (cv_locked s) (cb_locked s)
  | MTest2 | MBlock => say s VLost
  | _ => s
  end.

(** register_callback, :79-92, and new_unique_id_, :109-115, with the mutex free *)
Definition do_register (s : sstate) (t : nat) (f : fn) : sstate * N :=
  let id := ((last_id s + 1) mod W)%N in
  (say (set_callbacks s (map_put (callbacks s) id f) id) (VRegistered t id f), id).
(** unregister_callback, :94-107, with the mutex free *)
Definition do_unregister (s : sstate) (t : nat) (id : N) : sstate :=
  if map_has (callbacks s) id then say (set_callbacks s (map_erase (callbacks s) id) (last_id s)) (VUnregistered t id)
  else say s (VThrow t id).

(** one step of the thread of the manager: signal_handler_thread_routine_, :153-176, and
    signal_handler_routine_, :139-151 *)
Definition mstep (s : sstate) : option sstate :=
  let cv := cv_locked s in
  let cb := cb_locked s in
  match manager s with
  | MLoop => Some (set_manager s (if stop s then MEnded else MLock) cv cb)
  | MLock => if cv then None else Some (set_manager s MTest true cb)
  | MTest => Some (set_manager s (if N.ltb 0 (received s) then MStop else MTest2) cv cb)
  | MTest2 => Some (set_manager s (if stop s then MStop else MBlock) cv cb)
  | MBlock => Some (set_manager s MSleep false cb)
  | MSleep => None
  | MWake => if cv then None else Some (set_manager s MTest true cb)
  | MStop => Some (if stop s then set_manager s MEnded false cb else set_manager s MCount cv cb)
  | MCount => Some (if N.ltb 0 (received s) then set_manager s MTake cv cb else set_manager s MLoop false cb)
  | MTake => Some (say (set_manager (set_received s ((received s + W - 1) mod W) (notifying s)) MDispatch cv cb) VTake)
  | MDispatch => if cb then None else Some (say (set_manager s (MCall (callbacks s)) cv true) VDispatch)
  | MCall [] => Some (say (set_manager s MLoop false false) VFinished)
  | MCall ((id, Raw k) :: rest) => Some (say (set_manager s (MIn (Raw k) rest) cv cb) (VCall id (Raw k)))
  | MCall ((id, Of h) :: rest) => Some (say (set_manager s (MWant h rest) cv cb) (VCall id (Of h)))
  | MWant h rest =>
      if imutex (hs s h) then None
      else if is_set (hs s h) then Some (set_manager (set_handler s h (with_i (hs s h) true)) (MIn (Of h) rest) cv cb)
      else Some (set_manager s (MCall rest) cv cb)
  | MIn (Raw _) rest => Some (set_manager s (MCall rest) cv cb)
  | MIn (Of h) rest => Some (set_manager (set_handler s h (with_i (hs s h) false)) (MCall rest) cv cb)
  | MNested _ _ => None    (* the mutex is locked by this thread and is not recursive *)
  | MEnded => None
  end.

(** one step of the thread [t] of the program, which is at [p] *)
Definition cstep (s : sstate) (t : nat) (p : cpc) : option sstate :=
  match p with
  | CIdle | DDone => None
  | CRegister f => if cb_locked s then None else Some (set_client (fst (do_register s t f)) t CIdle)
  | CUnregister id => if cb_locked s then None else Some (set_client (do_unregister s t id) t CIdle)
  | SLock h => if emutex (hs s h) then None else Some (set_client (set_handler s h (with_e (hs s h) true)) t (SSet h))
  | SSet h => if imutex (hs s h) then None
              else Some (set_client (set_handler s h (with_set (hs s h) true)) t (if is_set (hs s h) then SUnlock h else SFlag h))
  | SFlag h => Some (set_client (set_handler s h (with_manager (hs s h) true)) t (if in_manager (hs s h) then SUnlock h else SRegister h))
  | SRegister h =>
      if cb_locked s then None
      else let (s', id) := do_register s t (Of h) in Some (set_client (set_handler s' h (with_id (hs s h) id)) t (SUnlock h))
  | SUnlock h => Some (say (set_client (set_handler s h (with_e (hs s h) false)) t CIdle) (VSet t h))
  | ULock h => if emutex (hs s h) then None else Some (set_client (set_handler s h (with_e (hs s h) true)) t (UClear h))
  | UClear h =>
      if is_set (hs s h) then
        if imutex (hs s h) then None else Some (set_client (set_handler s h (with_set (hs s h) false)) t (UFlag h))
      else Some (set_client s t (UUnlock h))
  | UFlag h => Some (set_client (set_handler s h (with_manager (hs s h) false)) t (if in_manager (hs s h) then UUnregister h else UUnlock h))
  | UUnregister h => if cb_locked s then None else Some (set_client (do_unregister s t (callback_id (hs s h))) t (UUnlock h))
  | UUnlock h => Some (say (set_client (set_handler s h (with_e (hs s h) false)) t CIdle) (VUnset t h))
  | ELock h => if imutex (hs s h) then None
               else if is_set (hs s h) then Some (set_client (set_handler s h (with_i (hs s h) true)) t (EIn h))
               else Some (set_client s t CIdle)
  | EIn h => Some (set_client (set_handler s h (with_i (hs s h) false)) t CIdle)
  | DLock => if cv_locked s then None else Some (set_client (set_stop s) t DNotify)
  | DNotify => Some (set_client (notify s) t DJoin)
  | DJoin => match manager s with MEnded => Some (say (set_client s t DDone) (VDestroyed t)) | _ => None end
  end.

Definition enter (c : scall) : cpc :=
  match c with
  | Register f => CRegister (Raw f)
  | Unregister id => CUnregister id
  | SetCallback h => SLock h
  | UnsetCallback h => ULock h
  | Simulate h => ELock h
  | Destroy => DLock
  end.

Inductive slabel :=
| Arrive | Notify
| Spurious            (* the thread of the manager wakes for no reason *)
| Manager             (* a step of the thread of the manager *)
| Nested              (* the callback that it is calling calls a function of the manager *)
| Call (t : nat) (c : scall)
| Run (t : nat).

Definition sstep (s : sstate) (l : slabel) : option sstate :=
  match l with
  | Arrive => Some (say (set_received s ((received s + 1) mod W) (S (notifying s))) VArrive)
  | Notify => match notifying s with 0 => None | S k => Some (notify (set_received s (received s) k)) end
  | Spurious => match manager s with MSleep => Some (set_manager s MWake (cv_locked s) (cb_locked s)) | _ => None end
  | Manager => mstep s
  | Nested => match manager s with MIn f rest => Some (set_manager s (MNested f rest) (cv_locked s) (cb_locked s)) | _ => None end
  | Call t c => match nth_error (clients s) t with Some CIdle => Some (set_client s t (enter c)) | _ => None end
  | Run t => match nth_error (clients s) t with Some p => cstep s t p | None => None end
  end.

Fixpoint ssteps (s : sstate) (ls : list slabel) : option sstate :=
  match ls with
  | [] => Some s
  | l :: ls' => match sstep s l with Some s' => ssteps s' ls' | None => None end
  end.
