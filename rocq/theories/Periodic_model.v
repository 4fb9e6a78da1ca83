(** Model of cpp_utils/src/cpp/event/PeriodicEventHandler.cpp as a transition system: one handler,
    its period thread and any number of threads of the program.

    - Time is a number of milliseconds that passes in steps [Tick].
    - The parts of EventHandler that matter here, EventHandler.ipp:48-118 and :177-202, are its two
      mutexes and is_callback_set_; the rest is in Event_model.  What set_callback and
      unset_callback do with internal_callback_mutex_ locked is one step, possible when it is free.
      The recursion of these mutexes matters only to the period thread, whose callback may call
      set_callback and unset_callback, [Nested]; the other threads call nothing from callbacks.
    - periodic_wait_mutex_ is not recursive.  It is locked across steps only by the period thread,
      which keeps it during the callback; what the others do with it is one step.
    - Log messages are left out.  The destructor is unset_callback, :55-58. *)
From Coq Require Export NArith.
From Verif Require Export Threads Outcome.

(** constructor, :30-45: Duration_ms is a uint32_t, time_utils.hpp:30 *)
Definition new_periodic (period_time : N) : outcome N :=
  if N.leb period_time 0 then Throw Initialization else Ret period_time.

(** where the period thread is, :60-85 *)
Inductive ppc :=
| PNone           (* period_thread_ is not a thread *)
| PLoop           (* :62 *)
| PLock           (* :65 *)
| PWait           (* :68, the time at which the wait ends is computed *)
| PTest (d : N)   (* :75, with the mutex; the wait ends at [d] *)
| PSleep (d : N)  (* blocked *)
| PWake (d : N)   (* awake, without the mutex *)
| PTimed          (* the time has passed, without the mutex *)
| PAfter          (* :78 *)
| PWant           (* in event_occurred_, EventHandler.ipp:182 *)
| PIn             (* in the callback *)
| PNest (b : bool)(* in the callback, in set_callback, true, or unset_callback, false: EventHandler.ipp:52, :84 *)
| PSelf           (* in unset_callback called by the callback: :106, with the mutex locked by this thread *)
| PEnded
| PBlock (d : N). (* :75, the predicate was false: about to unlock the mutex and block, as one step *)

(** where a thread of the program is *)
Inductive cpc :=
| CIdle
(* set_callback: EventHandler.ipp:52, :57-66, PeriodicEventHandler.cpp:90-91, :94, EventHandler.ipp:79 *)
| SLock | SSet | SActive | SThread | SUnlock
(* unset_callback: EventHandler.ipp:84, :88-102, PeriodicEventHandler.cpp:106-107, :109, :112, EventHandler.ipp:118 *)
| ULock | UClear | UStop | UNotify | UJoin | UUnlock
(* simulate_event_occurred: EventHandler.ipp:182, in the callback *)
| ELock | EIn.

Inductive pcall := SetCallback | UnsetCallback | Simulate.

Inductive pevent :=
| VSetting (t : nat)      (* is_callback_set_ becomes true *)
| VSet (t : nat)          (* set_callback returns *)
| VUnset (t : nat)        (* unset_callback returns *)
| VStarted (n : N)        (* the period thread is created, at time [n] *)
| VCalled (n : N)         (* the period thread calls the callback *)
| VReturned (n : N)       (* ... which returns *)
| VSimulated (t : nat)    (* simulate_event_occurred calls the callback *)
| VUnsetSelf              (* the callback unsets itself *)
| VTerminate.             (* std::terminate: period_thread_ assigned while it is a thread, or joined while it is not *)

Record pstate := {
  period : N;          (* period_time_ *)
  now : N;
  active : bool;       (* timer_active_ *)
  pm_locked : bool;    (* periodic_wait_mutex_ *)
  em_locked : bool;    (* event_mutex_ *)
  im_locked : bool;    (* internal_callback_mutex_ *)
  is_set : bool;       (* is_callback_set_ *)
  timer : ppc;
  clients : list cpc;
  history : list pevent }.   (* newest first *)

Definition pinit (period_time : N) (n : nat) : pstate :=
  {| period := period_time; now := 0; active := false; pm_locked := false; em_locked := false; im_locked := false; is_set := false;
     timer := PNone; clients := repeat CIdle n; history := [] |}.

Definition set_now (s : pstate) (n : N) := {| period := period s; now := n; active := active s; pm_locked := pm_locked s; em_locked := em_locked s; im_locked := im_locked s; is_set := is_set s; timer := timer s; clients := clients s; history := history s |}.
Definition set_active (s : pstate) (b : bool) := {| period := period s; now := now s; active := b; pm_locked := pm_locked s; em_locked := em_locked s; im_locked := im_locked s; is_set := is_set s; timer := timer s; clients := clients s; history := history s |}.
Definition set_em (s : pstate) (b : bool) := {| period := period s; now := now s; active := active s; pm_locked := pm_locked s; em_locked := b; im_locked := im_locked s; is_set := is_set s; timer := timer s; clients := clients s; history := history s |}.
Definition set_im (s : pstate) (b : bool) := {| period := period s; now := now s; active := active s; pm_locked := pm_locked s; em_locked := em_locked s; im_locked := b; is_set := is_set s; timer := timer s; clients := clients s; history := history s |}.
Definition set_set (s : pstate) (b : bool) := {| period := period s; now := now s; active := active s; pm_locked := pm_locked s; em_locked := em_locked s; im_locked := im_locked s; is_set := b; timer := timer s; clients := clients s; history := history s |}.
Definition set_timer (s : pstate) (p : ppc) (b : bool) := {| period := period s; now := now s; active := active s; pm_locked := b; em_locked := em_locked s; im_locked := im_locked s; is_set := is_set s; timer := p; clients := clients s; history := history s |}.
Definition set_client (s : pstate) (t : nat) (p : cpc) := {| period := period s; now := now s; active := active s; pm_locked := pm_locked s; em_locked := em_locked s; im_locked := im_locked s; is_set := is_set s; timer := timer s; clients := upd (clients s) t p; history := history s |}.
Definition say (s : pstate) (e : pevent) := {| period := period s; now := now s; active := active s; pm_locked := pm_locked s; em_locked := em_locked s; im_locked := im_locked s; is_set := is_set s; timer := timer s; clients := clients s; history := e :: history s |}.

(** one step of the period thread *)
Definition tstep (s : pstate) : option pstate :=
  match timer s with
  | PNone | PEnded | PSleep _ => None
  | PLoop => Some (set_timer s (if active s then PLock else PEnded) false)
  | PLock => if pm_locked s then None else Some (set_timer s PWait true)
  | PWait => Some (set_timer s (PTest (now s + period s)) true)
  | PTest d => Some (set_timer s (if active s then PBlock d else PAfter) true)
  | PBlock d => Some (set_timer s (PSleep d) false)
  | PWake d => if pm_locked s then None else Some (set_timer s (PTest d) true)
  | PTimed => if pm_locked s then None else Some (set_timer s PAfter true)
  | PAfter => Some (if active s then set_timer s PWant true else set_timer s PEnded false)
  | PWant => if im_locked s then None
             else if is_set s then Some (say (set_im (set_timer s PIn true) true) (VCalled (now s)))
             else Some (set_timer s PLoop false)
  | PIn => Some (say (set_im (set_timer s PLoop false) false) (VReturned (now s)))
  | PNest true => if em_locked s then None else Some (set_timer s PIn true)
  | PNest false => if em_locked s then None else Some (say (set_em (set_set (set_timer s PSelf true) false) true) VUnsetSelf)
  | PSelf => None     (* the mutex is locked by this thread and is not recursive *)
  end.

(** one step of the thread [t] of the program, which is at [p] *)
Definition cstep (s : pstate) (t : nat) (p : cpc) : option pstate :=
  match p with
  | CIdle => None
  | SLock => if em_locked s then None else Some (set_client (set_em s true) t SSet)
  | SSet => if im_locked s then None
            else if is_set s then Some (set_client s t SUnlock) else Some (say (set_client (set_set s true) t SActive) (VSetting t))
  | SActive => if pm_locked s then None else Some (set_client (set_active s true) t SThread)
  | SThread => match timer s with
               | PNone => Some (say (set_client (set_timer s PLoop (pm_locked s)) t SUnlock) (VStarted (now s)))
               | _ => Some (say (set_client s t SUnlock) VTerminate)
               end
  | SUnlock => Some (say (set_client (set_em s false) t CIdle) (VSet t))
  | ULock => if em_locked s then None else Some (set_client (set_em s true) t UClear)
  | UClear => if is_set s then if im_locked s then None else Some (set_client (set_set s false) t UStop)
              else Some (set_client s t UUnlock)
  | UStop => if pm_locked s then None else Some (set_client (set_active s false) t UNotify)
  | UNotify => Some (set_client (match timer s with PSleep d => set_timer s (PWake d) (pm_locked s) | _ => s end) t UJoin)
  | UJoin => match timer s with
             | PEnded => Some (set_client (set_timer s PNone (pm_locked s)) t UUnlock)
             | PNone => Some (say (set_client s t UUnlock) VTerminate)
             | _ => None
             end
  | UUnlock => Some (say (set_client (set_em s false) t CIdle) (VUnset t))
  | ELock => if im_locked s then None
             else if is_set s then Some (say (set_client (set_im s true) t EIn) (VSimulated t)) else Some (set_client s t CIdle)
  | EIn => Some (set_client (set_im s false) t CIdle)
  end.

Definition enter (c : pcall) : cpc := match c with SetCallback => SLock | UnsetCallback => ULock | Simulate => ELock end.

Inductive plabel :=
| Tick (d : N)         (* time passes *)
| Timeout              (* the wait of the period thread ends *)
| Spurious             (* ... for no reason *)
| Timer                (* a step of the period thread *)
| Nested (b : bool)    (* the callback it is calling calls set_callback or unset_callback *)
| Call (t : nat) (c : pcall)
| Run (t : nat).

Definition pstep (s : pstate) (l : plabel) : option pstate :=
  match l with
  | Tick d => Some (set_now s (now s + d))
  | Timeout => match timer s with PSleep d => if N.leb d (now s) then Some (set_timer s PTimed (pm_locked s)) else None | _ => None end
  | Spurious => match timer s with PSleep d => Some (set_timer s (PWake d) (pm_locked s)) | _ => None end
  | Timer => tstep s
  | Nested b => match timer s with PIn => Some (set_timer s (PNest b) (pm_locked s)) | _ => None end
  | Call t c => match nth_error (clients s) t with Some CIdle => Some (set_client s t (enter c)) | _ => None end
  | Run t => match nth_error (clients s) t with Some p => cstep s t p | None => None end
  end.

Fixpoint psteps (s : pstate) (ls : list plabel) : option pstate :=
  match ls with
  | [] => Some s
  | l :: ls' => match pstep s l with Some s' => psteps s' ls' | None => None end
  end.
