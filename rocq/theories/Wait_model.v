(** Model of cpp_utils/include/cpp_utils/wait/impl/WaitHandler.ipp and of
    cpp_utils/src/cpp/wait/CounterWaitHandler.cpp, IntWaitHandler.cpp and
    BooleanWaitHandler.cpp, as a transition system: any number of threads, each idle or inside
    one call, take one step at a time in any order.

    A mutex is its owner.  What a thread does between locking and unlocking
    [wait_condition_variable_mutex_] in a block that contains nothing else than accesses to
    the variables it protects is one step, possible when the mutex is free: all accesses
    to [value_] and all writes to [enabled_] are made with the mutex taken.  The waits
    themselves keep one step per access.
    [status_mutex_] is recursive: only its outermost locking is a step.
    [threads_waiting_] does not wrap around: there are fewer than 2^32 threads.
    Time is a number of milliseconds that only grows; [the_end_of_time] is never reached.
    A sleeping thread may be woken for no reason, as the C++ standard allows. *)
From Coq Require Export List Bool Arith.
Export ListNotations.

Section Model.
Variable V : Type.
(** the counter (CounterWaitHandler): value above the threshold, value equal to it, one more, one less *)
Variables (above reached : V -> bool) (incr decr : V -> V).

(** the two condition variables: [wait_condition_variable_], [threshold_reached_cv_] *)
Inductive cv := Main | Thr.
Inductive reason := Disabled | Timeout | ConditionMet.

(** a call to [blocking_wait_] or [wait_threshold_reached] made at time [w_start]; timeout 0 is none *)
Record wait_call := { w_cv : cv; w_pred : V -> bool; w_timeout : nat; w_take : bool; w_start : nat }.

Inductive control := Kenable | Kdisable | Kblocking | Kstop.

Inductive op :=
| Wait (p : V -> bool) (timeout : nat)      (* WaitHandler::wait *)
| WaitAndDecrement (timeout : nat)          (* CounterWaitHandler *)
| WaitThreshold (timeout : nat)             (* CounterWaitHandler::wait_threshold_reached *)
| SetValue (v : V) (notify : bool)          (* WaitHandler::set_value, open, close *)
| Modify (f : V -> V)                       (* IntWaitHandler ++ and -- *)
| Increment                                 (* CounterWaitHandler ++ *)
| GetValue
| Control (k : control).

(** where a thread is *)
Inductive pc :=
| Idle
| WLock (w : wait_call)                          (* before WaitHandler.ipp:128, CounterWaitHandler.cpp:69 *)
| WCheck (w : wait_call)                         (* mutex taken, before :131, :72 *)
| WTest (w : wait_call) (dl : option nat)        (* mutex taken, before testing the condition in wait_until *)
| WSleep (w : wait_call) (dl : option nat)       (* asleep in the condition variable *)
| WWoken (w : wait_call) (dl : option nat) (timedout : bool)  (* awake, waiting for the mutex *)
| WFinal (w : wait_call) (dl : option nat)       (* mutex taken, last test after a time out *)
| WExit (w : wait_call) (dl : option nat) (finished : bool)   (* before threads_waiting_-- :164, :104 *)
| WReason (w : wait_call) (dl : option nat) (finished : bool) (* before testing enabled :167, :107 *)
| WRet (w : wait_call) (r : reason)              (* mutex still taken, before returning *)
| VLock (f : V -> V) (notify : bool)             (* before WaitHandler.ipp:211, IntWaitHandler.cpp:106 *)
| VNotify                                        (* before notify_all :217, IntWaitHandler.cpp:110 *)
| ILock                                          (* before CounterWaitHandler.cpp:128 *)
| GLock                                          (* before WaitHandler.ipp:200 *)
| KLock (k : control)                            (* before status_mutex_ :54, :73, :97, :224 *)
| STest                                          (* before :226 *)
| DTest (k : control)                            (* before :76 *)
| DStore (k : control)                           (* before :80 *)
| DNotify (k : control)                          (* before :86 *)
| BLoop (k : control)                            (* before :103 *)
| BMutex (k : control)                           (* before :107 *)
| BNotify (k : control)                          (* before :111 *)
| ETest (k : control)                            (* before :57 *)
| EStore (k : control).                          (* before :60 *)

Inductive event :=
| EvReturn (t : nat) (w : wait_call) (r : reason) (* the wait has returned *)
| EvValue (t : nat) (v : V)                       (* get_value has returned *)
| EvDone (t : nat) (k : control).                 (* a control operation has returned *)

Record state := {
  value : V; enabled : bool; waiting : nat;
  mutex : option nat; status : option nat;
  threads : list pc; now : nat; log : list event }.

(** the constructors, WaitHandler.ipp:27-43, and any number of idle threads *)
Definition init (v : V) (en : bool) (n : nat) : state :=
  {| value := v; enabled := en; waiting := 0; mutex := None; status := None;
     threads := repeat Idle n; now := 0; log := [] |}.

Fixpoint upd {A} (l : list A) (i : nat) (x : A) : list A :=
  match l, i with
  | [], _ => []
  | _ :: l', 0 => x :: l'
  | y :: l', S i' => y :: upd l' i' x
  end.

Definition set_pc (t : nat) (p : pc) (s : state) : state :=
  {| value := value s; enabled := enabled s; waiting := waiting s; mutex := mutex s; status := status s;
     threads := upd (threads s) t p; now := now s; log := log s |}.
Definition set_threads (ths : list pc) (s : state) : state :=
  {| value := value s; enabled := enabled s; waiting := waiting s; mutex := mutex s; status := status s;
     threads := ths; now := now s; log := log s |}.
Definition set_mutex (m : option nat) (s : state) : state :=
  {| value := value s; enabled := enabled s; waiting := waiting s; mutex := m; status := status s;
     threads := threads s; now := now s; log := log s |}.
Definition set_status (m : option nat) (s : state) : state :=
  {| value := value s; enabled := enabled s; waiting := waiting s; mutex := mutex s; status := m;
     threads := threads s; now := now s; log := log s |}.
Definition set_val (v : V) (s : state) : state :=
  {| value := v; enabled := enabled s; waiting := waiting s; mutex := mutex s; status := status s;
     threads := threads s; now := now s; log := log s |}.
Definition set_enabled (b : bool) (s : state) : state :=
  {| value := value s; enabled := b; waiting := waiting s; mutex := mutex s; status := status s;
     threads := threads s; now := now s; log := log s |}.
Definition set_waiting (n : nat) (s : state) : state :=
  {| value := value s; enabled := enabled s; waiting := n; mutex := mutex s; status := status s;
     threads := threads s; now := now s; log := log s |}.
Definition set_now (n : nat) (s : state) : state :=
  {| value := value s; enabled := enabled s; waiting := waiting s; mutex := mutex s; status := status s;
     threads := threads s; now := n; log := log s |}.
Definition emit (e : event) (s : state) : state :=
  {| value := value s; enabled := enabled s; waiting := waiting s; mutex := mutex s; status := status s;
     threads := threads s; now := now s; log := e :: log s |}.

Definition cv_eqb (a b : cv) : bool := match a, b with Main, Main | Thr, Thr => true | _, _ => false end.

Definition sleeping (c : cv) (p : pc) : bool := match p with WSleep w _ => cv_eqb (w_cv w) c | _ => false end.
Definition wake (c : cv) (p : pc) : pc :=
  match p with WSleep w dl => if cv_eqb (w_cv w) c then WWoken w dl false else p | _ => p end.

(** std::condition_variable::notify_all, notify_one ([pick] is the thread woken, if some sleeps) *)
Definition notify_all (c : cv) (s : state) : state := set_threads (map (wake c) (threads s)) s.
Definition notify_one (c : cv) (pick : nat) (s : state) : option state :=
  if existsb (sleeping c) (threads s) then
    match nth_error (threads s) pick with
    | Some p => if sleeping c p then Some (set_pc pick (wake c p) s) else None
    | None => None
    end
  else Some s.

(** the condition tested by the waits, WaitHandler.ipp:159, CounterWaitHandler.cpp:99 *)
Definition condition (w : wait_call) (s : state) : bool := negb (enabled s) || w_pred w (value s).

(** CounterWaitHandler.cpp:141-155 [decrease_1_nts_] *)
Definition decrease (pick : nat) (s : state) : option state :=
  let s := set_val (decr (value s)) s in
  if above (value s) then notify_one Main pick s
  else if reached (value s) then Some (notify_all Thr s)
  else Some s.

(** the end of a control operation: status_mutex_ released *)
Definition finish (t : nat) (k : control) (s : state) : state := emit (EvDone t k) (set_pc t Idle (set_status None s)).

(** after [disable] itself, :70-92 *)
Definition after_disable (t : nat) (k : control) (s : state) : state :=
  match k with Kdisable => finish t k s | _ => set_pc t (BLoop k) s end.

Definition free (m : option nat) : bool := match m with None => true | Some _ => false end.

(** one step of thread [t], which is at [p] *)
Definition run (t : nat) (p : pc) (pick : nat) (s : state) : option state :=
  match p with
  | Idle => None
  | WLock w => if free (mutex s) then Some (set_pc t (WCheck w) (set_mutex (Some t) s)) else None
  | WCheck w =>
    if negb (enabled s) then Some (set_pc t (WRet w Disabled) s)
    else Some (set_pc t (WTest w (match w_timeout w with 0 => None | ms => Some (now s + ms) end)) (set_waiting (waiting s + 1) s))
  | WTest w dl =>
    if condition w s then Some (set_pc t (WExit w dl true) s)
    else Some (set_pc t (WSleep w dl) (set_mutex None s))
  | WSleep _ _ => None
  | WWoken w dl timedout =>
    if free (mutex s) then Some (set_pc t (if timedout then WFinal w dl else WTest w dl) (set_mutex (Some t) s)) else None
  | WFinal w dl => Some (set_pc t (WExit w dl (condition w s)) s)
  | WExit w dl fin => Some (set_pc t (WReason w dl fin) (set_waiting (waiting s - 1) s))
  | WReason w dl fin =>
    let r := if negb (enabled s) then Disabled else if fin then ConditionMet else Timeout in
    let s := set_pc t (WRet w r) s in
    match r with
    | ConditionMet => if w_take w then decrease pick s else Some s
    | _ => Some s
    end
  | WRet w r => Some (emit (EvReturn t w r) (set_pc t Idle (set_mutex None s)))
  | VLock f notify =>
    if free (mutex s) then Some (set_pc t (if notify then VNotify else Idle) (set_val (f (value s)) s)) else None
  | VNotify => Some (notify_all Main (set_pc t Idle s))
  | ILock =>
    if free (mutex s) then
      let s := set_pc t Idle (set_val (incr (value s)) s) in
      if above (value s) then notify_one Main pick s else Some s
    else None
  | GLock => if free (mutex s) then Some (emit (EvValue t (value s)) (set_pc t Idle s)) else None
  | KLock k =>
    if free (status s) then
      Some (set_pc t (match k with Kenable => ETest k | Kstop => STest | _ => DTest k end) (set_status (Some t) s))
    else None
  | STest => Some (set_pc t (if enabled s then DTest Kstop else ETest Kstop) s)
  | DTest k => if enabled s then Some (set_pc t (DStore k) s) else Some (after_disable t k s)
  | DStore k => if free (mutex s) then Some (set_pc t (DNotify k) (set_enabled false s)) else None
  | DNotify k => Some (notify_all Main (after_disable t k s))
  | BLoop k =>
    match waiting s with
    | 0 => match k with Kstop => Some (set_pc t (ETest k) s) | _ => Some (finish t k s) end
    | S _ => Some (set_pc t (BMutex k) s)
    end
  | BMutex k => if free (mutex s) then Some (set_pc t (BNotify k) s) else None
  | BNotify k => Some (notify_all Main (set_pc t (BLoop k) s))
  | ETest k => if enabled s then Some (finish t k s) else Some (set_pc t (EStore k) s)
  | EStore k => if free (mutex s) then Some (finish t k (set_enabled true s)) else None
  end.

Definition start (o : op) (time : nat) : pc :=
  match o with
  | Wait p ms => WLock {| w_cv := Main; w_pred := p; w_timeout := ms; w_take := false; w_start := time |}
  | WaitAndDecrement ms => WLock {| w_cv := Main; w_pred := above; w_timeout := ms; w_take := true; w_start := time |}
  | WaitThreshold ms => WLock {| w_cv := Thr; w_pred := reached; w_timeout := ms; w_take := false; w_start := time |}
  | SetValue v notify => VLock (fun _ => v) notify
  | Modify f => VLock f true
  | Increment => ILock
  | GetValue => GLock
  | Control k => KLock k
  end.

Inductive label :=
| Call (t : nat) (o : op)     (* an idle thread calls an operation *)
| Run (t : nat) (pick : nat)  (* a thread makes its next step *)
| Spurious (t : nat)          (* a sleeping thread wakes up for no reason *)
| Expire (t : nat)            (* the deadline of a sleeping thread has passed *)
| Tick.                       (* a millisecond passes *)

Definition step (s : state) (l : label) : option state :=
  match l with
  | Call t o => match nth_error (threads s) t with Some Idle => Some (set_pc t (start o (now s)) s) | _ => None end
  | Run t pick => match nth_error (threads s) t with Some p => run t p pick s | None => None end
  | Spurious t => match nth_error (threads s) t with Some (WSleep w dl) => Some (set_pc t (WWoken w dl false) s) | _ => None end
  | Expire t =>
    match nth_error (threads s) t with
    | Some (WSleep w (Some d)) => if d <=? now s then Some (set_pc t (WWoken w (Some d) true) s) else None
    | _ => None
    end
  | Tick => Some (set_now (now s + 1) s)
  end.

(** an execution *)
Fixpoint steps (s : state) (ls : list label) : option state :=
  match ls with
  | [] => Some s
  | l :: ls' => match step s l with Some s' => steps s' ls' | None => None end
  end.
End Model.
Arguments Wait {V}. Arguments WaitAndDecrement {V}. Arguments WaitThreshold {V}. Arguments SetValue {V}.
Arguments Modify {V}. Arguments Increment {V}. Arguments GetValue {V}. Arguments Control {V}.
Arguments Call {V}. Arguments Run {V}. Arguments Spurious {V}. Arguments Expire {V}. Arguments Tick {V}.
Arguments EvReturn {V}. Arguments EvValue {V}. Arguments EvDone {V}.
Arguments value {V}. Arguments enabled {V}. Arguments waiting {V}. Arguments mutex {V}. Arguments status {V}.
Arguments threads {V}. Arguments now {V}. Arguments log {V}.
Arguments w_cv {V}. Arguments w_pred {V}. Arguments w_timeout {V}. Arguments w_take {V}. Arguments w_start {V}.
Arguments Idle {V}. Arguments WLock {V}. Arguments WCheck {V}. Arguments WTest {V}. Arguments WSleep {V}.
Arguments WWoken {V}. Arguments WFinal {V}. Arguments WExit {V}. Arguments WReason {V}. Arguments WRet {V}.
Arguments VLock {V}. Arguments VNotify {V}. Arguments ILock {V}. Arguments GLock {V}. Arguments KLock {V}.
Arguments STest {V}. Arguments DTest {V}. Arguments DStore {V}. Arguments DNotify {V}. Arguments BLoop {V}.
Arguments BMutex {V}. Arguments BNotify {V}. Arguments ETest {V}. Arguments EStore {V}.
Arguments sleeping {V}. Arguments wake {V}. Arguments notify_all {V}. Arguments notify_one {V}.
Arguments set_pc {V}. Arguments set_threads {V}. Arguments set_mutex {V}. Arguments set_status {V}. Arguments set_val {V}.
Arguments set_enabled {V}. Arguments set_waiting {V}. Arguments set_now {V}. Arguments emit {V}.
Arguments condition {V}. Arguments decrease {V}. Arguments finish {V}. Arguments after_disable {V}.
Arguments run {V}. Arguments start {V}. Arguments step {V}. Arguments steps {V}. Arguments init {V}.

(** CounterWaitHandler: CounterType is unsigned int *)
From Coq Require Import NArith.
Definition c_above (threshold v : N) : bool := (threshold <? v)%N.
Definition c_reached (threshold v : N) : bool := (v =? threshold)%N.
Definition c_incr (v : N) : N := ((v + 1) mod 2 ^ 32)%N.
Definition c_decr (v : N) : N := ((v + 2 ^ 32 - 1) mod 2 ^ 32)%N.
Definition c_step (threshold : N) := step (c_above threshold) (c_reached threshold) c_incr c_decr.
Definition c_steps (threshold : N) := steps (c_above threshold) (c_reached threshold) c_incr c_decr.
