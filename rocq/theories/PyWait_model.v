(** Model of the wait handlers of py_utils: py_utils/py_utils/wait/WaitHandler.py, IntWaitHandler.py and
    BooleanWaitHandler.py, as a transition system: one handler and any number of threads.

    - _lock is a threading.Lock.  What a thread does between taking it and releasing it is one step,
      possible when the lock is free; only blocking_disable keeps it longer, [BSpin].
    - threading.Condition of the standard library is modelled after its source (CPython 3.11): wait
      releases the lock and blocks until notify_all or the timeout, without spurious wake-ups, then
      takes the lock again; wait_for tests the predicate first and after each wait, and gives up when
      the predicate is false and the time has passed.
    - Time is a number that passes in steps [Tick]; negative timeouts are as 0.
    - The value is an integer; False and True are 0 and 1 in BooleanWaitHandler.  A predicate is a
      function of the value that may raise, [None].  Predicates that use the handler are left out. *)
From Coq Require Export ZArith NArith.
From Verif Require Export Threads.

Definition predicate := Z -> option bool.
(** BooleanWaitHandler.py:61; IntWaitHandler.py:69, :73, :77; WaitHandler.py:95-97 *)
Definition is_open : predicate := fun v => Some (negb (Z.eqb v 0)).
Definition equal_to (x : Z) : predicate := fun v => Some (Z.eqb x v).
Definition greater_equal (x : Z) : predicate := fun v => Some (Z.leb x v).
Definition greater (x : Z) : predicate := fun v => Some (Z.ltb x v).
Definition blank : predicate := fun _ => Some false.

(** AwakeReason, WaitHandler.py:28-32 *)
Inductive reason := Disabled | Timeout | ConditionMet.

Inductive op :=
| Wait (p : predicate) (timeout : option N)   (* WaitHandler.py:100-145 *)
| SetValue (v : Z)                            (* :66-70; BooleanWaitHandler.py:41, :45 *)
| Add (d : Z)                                 (* IntWaitHandler.py:47-57 *)
| GetValue                                    (* WaitHandler.py:61-64 *)
| Enable | Disable | BlockingDisable          (* :73-87, :148-163 *)
| Enabled.                                    (* :90-93 *)

(** where a thread is *)
Inductive pc :=
| Idle
| Enter (o : op)                                   (* waiting for _lock *)
| WSleep (p : predicate) (deadline : option N)     (* inside Condition.wait, not notified *)
| WWake (p : predicate) (deadline : option N)      (* ... awake, waiting for _lock *)
| BSpin.                                           (* :162-163, with _lock *)

Inductive event :=
| VWaits (t : nat) (at_ : N) (timeout : option N)  (* wait blocks for the first time *)
| VWaited (t : nat) (r : reason)      (* wait returns *)
| VRaised (t : nat)                   (* ... or raises the exception of its predicate *)
| VSet (v : Z) | VAdd (d : Z)         (* the value changes *)
| VGot (t : nat) (v : Z)              (* get_value returns *)
| VEnable | VDisable | VIs (t : nat) (b : bool)
| VBlocked (t : nat).                 (* blocking_disable returns *)

Record state := {
  value : Z;            (* _value *)
  enabled : bool;       (* _enabled *)
  locked : bool;        (* _lock, across steps *)
  waiting : nat;        (* _n_waiting_threads *)
  now : N;
  threads : list pc;
  history : list event }.   (* newest first *)

(** WaitHandler.py:43-58 *)
Definition init (e : bool) (v : Z) (n : nat) : state :=
  {| value := v; enabled := e; locked := false; waiting := 0; now := 0; threads := repeat Idle n; history := [] |}.

Definition set_value (s : state) (v : Z) := {| value := v; enabled := enabled s; locked := locked s; waiting := waiting s; now := now s; threads := threads s; history := history s |}.
Definition set_enabled (s : state) (b : bool) := {| value := value s; enabled := b; locked := locked s; waiting := waiting s; now := now s; threads := threads s; history := history s |}.
Definition set_locked (s : state) (b : bool) := {| value := value s; enabled := enabled s; locked := b; waiting := waiting s; now := now s; threads := threads s; history := history s |}.
Definition set_waiting (s : state) (n : nat) := {| value := value s; enabled := enabled s; locked := locked s; waiting := n; now := now s; threads := threads s; history := history s |}.
Definition set_now (s : state) (n : N) := {| value := value s; enabled := enabled s; locked := locked s; waiting := waiting s; now := n; threads := threads s; history := history s |}.
Definition set_thread (s : state) (t : nat) (p : pc) := {| value := value s; enabled := enabled s; locked := locked s; waiting := waiting s; now := now s; threads := upd (threads s) t p; history := history s |}.
Definition say (s : state) (e : event) := {| value := value s; enabled := enabled s; locked := locked s; waiting := waiting s; now := now s; threads := threads s; history := e :: history s |}.

(** notify_all *)
Definition wake (p : pc) : pc := match p with WSleep q d => WWake q d | _ => p end.
Definition notify (s : state) : state :=
  {| value := value s; enabled := enabled s; locked := locked s; waiting := waiting s; now := now s; threads := map wake (threads s); history := history s |}.

(** the test of wait_for, WaitHandler.py:135 *)
Definition test (s : state) (p : predicate) : option bool := if enabled s then p (value s) else Some true.
(** wait_for returned [met], WaitHandler.py:138-145 *)
Definition finish (s : state) (t : nat) (met : bool) : state :=
  say (set_thread (set_waiting s (pred (waiting s))) t Idle) (VWaited t (if enabled s then if met then ConditionMet else Timeout else Disabled)).
Definition expired (s : state) (d : option N) : bool := match d with Some n => N.leb n (now s) | None => false end.

(** an operation gets the lock *)
Definition enter (s : state) (t : nat) (o : op) : state :=
  match o with
  | Wait p timeout =>
      let s := set_waiting s (S (waiting s)) in
      match test s p with
      | None => say (set_thread s t Idle) (VRaised t)
      | Some true => finish s t true
      | Some false => say (set_thread s t (WSleep p (match timeout with Some d => Some (now s + d)%N | None => None end))) (VWaits t (now s) timeout)
      end
  | SetValue v => say (notify (set_thread (set_value s v) t Idle)) (VSet v)
  | Add d => say (notify (set_thread (set_value s (value s + d)) t Idle)) (VAdd d)
  | GetValue => say (set_thread s t Idle) (VGot t (value s))
  | Enable => say (set_thread (set_enabled s true) t Idle) VEnable
  | Disable => say (notify (set_thread (set_enabled s false) t Idle)) VDisable
  | BlockingDisable =>
      let s := set_enabled s false in
      match waiting s with
      | 0 => say (set_thread s t Idle) (VBlocked t)
      | S _ => notify (set_locked (set_thread s t BSpin) true)
      end
  | Enabled => say (set_thread s t Idle) (VIs t (enabled s))
  end.

(** a thread gets the lock after a wait *)
Definition again (s : state) (t : nat) (p : predicate) (d : option N) : state :=
  match test s p with
  | None => say (set_thread s t Idle) (VRaised t)
  | Some true => finish s t true
  | Some false => if expired s d then finish s t false else set_thread s t (WSleep p d)
  end.

Inductive label :=
| Tick (d : N)            (* time passes *)
| Expire (t : nat)        (* the wait of [t] ends because of its timeout *)
| Call (t : nat) (o : op)
| Run (t : nat).

Definition step (s : state) (l : label) : option state :=
  match l with
  | Tick d => Some (set_now s (now s + d))
  | Expire t => match nth_error (threads s) t with
                | Some (WSleep p d) => if expired s d then Some (set_thread s t (WWake p d)) else None
                | _ => None
                end
  | Call t o => match nth_error (threads s) t with Some Idle => Some (set_thread s t (Enter o)) | _ => None end
  | Run t => match nth_error (threads s) t with
             | Some (Enter o) => if locked s then None else Some (enter s t o)
             | Some (WWake p d) => if locked s then None else Some (again s t p d)
             | Some BSpin => Some (match waiting s with 0 => say (set_locked (set_thread s t Idle) false) (VBlocked t) | S _ => notify s end)
             | _ => None
             end
  end.

Fixpoint steps (s : state) (ls : list label) : option state :=
  match ls with
  | [] => Some s
  | l :: ls' => match step s l with Some s' => steps s' ls' | None => None end
  end.
