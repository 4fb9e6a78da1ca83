(** Model of cpp_utils/src/cpp/thread_pool/pool/SlotThreadPool.cpp: client threads call emit,
    slot, enable, disable and wait_all_consumed while the threads of the pool run
    [thread_routine_].  The queue [task_queue_] is the one of Consumer_model, step by step.

    [slots_] is only read and written with [slots_mutex_] taken: a block that does nothing
    else is one step, possible when the mutex is free; emit keeps the mutex while it adds to
    the queue.  [enabled_] is atomic.  A task is only its identifier: it starts and ends, or an
    exception leaves it; DisabledException, :152, ends the thread, any other one the program, but
    the model goes on.  The calls of a task to the pool are those of one more client thread,
    which stands for the thread of the pool as long as it executes the task.  Calls to enable
    and disable from two threads at the same time race on [threads_]; the model lets each
    access be a step.
    The destructor is not modelled. *)
From Coq Require Import NArith.
From Verif Require Export Consumer_model.

(** TaskId.hpp: an unsigned number; equality is all that is used *)
Inductive pcall :=
| Emit (id : nat)
| Slot (id : nat)
| Enable
| Disable
| WaitTasks (timeout : nat).

(** where a thread is *)
Inductive pstage :=
| PUnborn             (* not created *)
| PIdle               (* a client thread, outside the pool *)
| PEmit (id : nat)    (* before slots_mutex_, SlotThreadPool.cpp:84 *)
| PProduce (id : nat) (* inside produce, :94, slots_mutex_ taken *)
| PSlot (id : nat)    (* before slots_mutex_, :103 *)
| PEnable             (* before exchange, :52 *)
| PSpawn (left : nat) (* in the loop, :55 *)
| PDisable            (* before exchange, :66 *)
| PQueueOff           (* inside task_queue_.disable(), :69 *)
| PJoin (left : list nat) (* in the loop, :71 *)
| PWaitTasks          (* inside wait_all_consumed of the queue, :120 *)
| PLoop               (* before consume, :132 *)
| PConsume            (* inside consume *)
| PTask (id : nat)    (* before slots_mutex_, :135 *)
| PBody (id : nat)    (* executing the task, :149 *)
| PEnded.             (* thread_routine_ has returned *)

Inductive pevent :=
| EvEmitted (t id : nat) | EvEmitRefused (t id : nat)
| EvSlotted (t id : nat) | EvSlotRefused (t id : nat)
| EvEnabled (t : nat) | EvDisabled (t : nat)
| EvWaited (t : nat) (r : reason)
| EvStart (t id : nat) | EvEnd (t id : nat)
| EvThrown (t id : nat) (disabled : bool) (* an exception leaves the task: DisabledException or another one *)
| EvAbort (t id : nat)      (* tsnh, :141 *)
| EvUncaught (t : nat).     (* another exception of consume leaves thread_routine_ *)

Record pstate := {
  queue : cstate nat;          (* task_queue_ *)
  slots : list nat;            (* the keys of slots_ *)
  slots_mutex : option nat;
  pool_enabled : bool;         (* enabled_ *)
  pool_threads : list nat;     (* threads_ *)
  pstages : list pstage;
  events : list pevent }.      (* last first *)

(** SlotThreadPool.cpp:29-36: [n] client threads, and [m] threads that enable may create *)
Definition pinit (n m : nat) : pstate :=
  {| queue := cinit 0%N true (n + m); slots := []; slots_mutex := None; pool_enabled := false; pool_threads := [];
     pstages := repeat PIdle n ++ repeat PUnborn m; events := [] |}.

Definition set_queue (q : cstate nat) (s : pstate) : pstate :=
  {| queue := q; slots := slots s; slots_mutex := slots_mutex s; pool_enabled := pool_enabled s;
     pool_threads := pool_threads s; pstages := pstages s; events := events s |}.
Definition set_slots (l : list nat) (s : pstate) : pstate :=
  {| queue := queue s; slots := l; slots_mutex := slots_mutex s; pool_enabled := pool_enabled s;
     pool_threads := pool_threads s; pstages := pstages s; events := events s |}.
Definition set_slots_mutex (m : option nat) (s : pstate) : pstate :=
  {| queue := queue s; slots := slots s; slots_mutex := m; pool_enabled := pool_enabled s;
     pool_threads := pool_threads s; pstages := pstages s; events := events s |}.
Definition set_pool_enabled (b : bool) (s : pstate) : pstate :=
  {| queue := queue s; slots := slots s; slots_mutex := slots_mutex s; pool_enabled := b;
     pool_threads := pool_threads s; pstages := pstages s; events := events s |}.
Definition set_pool_threads (l : list nat) (s : pstate) : pstate :=
  {| queue := queue s; slots := slots s; slots_mutex := slots_mutex s; pool_enabled := pool_enabled s;
     pool_threads := l; pstages := pstages s; events := events s |}.
Definition set_pstage (t : nat) (g : pstage) (s : pstate) : pstate :=
  {| queue := queue s; slots := slots s; slots_mutex := slots_mutex s; pool_enabled := pool_enabled s;
     pool_threads := pool_threads s; pstages := upd (pstages s) t g; events := events s |}.
Definition say (e : pevent) (s : pstate) : pstate :=
  {| queue := queue s; slots := slots s; slots_mutex := slots_mutex s; pool_enabled := pool_enabled s;
     pool_threads := pool_threads s; pstages := pstages s; events := e :: events s |}.

Definition registered (id : nat) (s : pstate) : bool := existsb (Nat.eqb id) (slots s).

(** thread [t] calls an operation of the queue and is then at [g] *)
Definition queue_call (t : nat) (c : call nat) (g : pstage) (s : pstate) : option pstate :=
  match cstep (queue s) (CCall t c) with
  | Some q => Some (set_pstage t g (set_queue q s))
  | None => None
  end.

(** what thread [t], at [g], does when its operation of the queue has returned *)
Definition queue_returned (t : nat) (g : pstage) (s : pstate) : pstate :=
  match g with
  | PProduce id => say (EvEmitted t id) (set_pstage t PIdle (set_slots_mutex None s))
  | PQueueOff => set_pstage t (PJoin (pool_threads s)) s
  | PWaitTasks =>
    match log (handler (queue s)) with
    | EvReturn _ _ r :: _ => say (EvWaited t r) (set_pstage t PIdle s)
    | _ => set_pstage t PIdle s (* unreachable *)
    end
  | PConsume => (* :152-155 catches DisabledException only *)
    match results (queue s) with
    | RValue _ x :: _ => set_pstage t (PTask x) s
    | RThrow _ Disabled :: _ => set_pstage t PEnded s
    | _ => say (EvUncaught t) (set_pstage t PEnded s)
    end
  | _ => s
  end.

(** a step of thread [t] inside an operation of the queue *)
Definition in_queue_step (t pick : nat) (g : pstage) (s : pstate) : option pstate :=
  match nth_error (stages (queue s)) t with
  | None => None
  | Some k =>
    match cstep (queue s) (match k with SIncrement | SWait | SOther => CRun t pick | _ => CQueue t end) with
    | None => None
    | Some q =>
      let s := set_queue q s in
      match nth_error (stages q) t with
      | Some SIdle => Some (queue_returned t g s)
      | _ => Some s
      end
    end
  end.

(** one step of thread [t], which is at [g] *)
Definition prun (t pick : nat) (g : pstage) (s : pstate) : option pstate :=
  match g with
  | PUnborn | PIdle | PEnded => None
  | PEmit id => (* :80-96 *)
    if free (slots_mutex s) then
      if registered id s then queue_call t (Produce id) (PProduce id) (set_slots_mutex (Some t) s)
      else Some (say (EvEmitRefused t id) (set_pstage t PIdle s))
    else None
  | PSlot id => (* :98-115 *)
    if free (slots_mutex s) then
      if registered id s then Some (say (EvSlotRefused t id) (set_pstage t PIdle s))
      else Some (say (EvSlotted t id) (set_pstage t PIdle (set_slots (id :: slots s) s)))
    else None
  | PEnable => (* :50-62; the number of threads of the pool is chosen by the label *)
    if pool_enabled s then Some (say (EvEnabled t) (set_pstage t PIdle s))
    else Some (set_pstage t (PSpawn pick) (set_pool_enabled true s))
  | PSpawn 0 => Some (say (EvEnabled t) (set_pstage t PIdle s))
  | PSpawn (S k) =>
    match nth_error (pstages s) pick with
    | Some PUnborn => Some (set_pstage t (PSpawn k) (set_pstage pick PLoop (set_pool_threads (pool_threads s ++ [pick]) s)))
    | _ => None
    end
  | PDisable => (* :64-78 *)
    if pool_enabled s then queue_call t (Switch Kdisable) PQueueOff (set_pool_enabled false s)
    else Some (say (EvDisabled t) (set_pstage t PIdle s))
  | PJoin [] => Some (say (EvDisabled t) (set_pstage t PIdle (set_pool_threads [] s)))
  | PJoin (u :: us) =>
    match nth_error (pstages s) u with
    | Some PEnded => Some (set_pstage t (PJoin us) s)
    | _ => None
    end
  | PLoop => queue_call t (Consume 0) PConsume s
  | PTask id => (* :135-149 *)
    if free (slots_mutex s) then
      if registered id s then Some (say (EvStart t id) (set_pstage t (PBody id) s))
      else Some (say (EvAbort t id) (set_pstage t PEnded s))
    else None
  | PBody id => Some (say (EvEnd t id) (set_pstage t PLoop s))
  | PProduce _ | PQueueOff | PWaitTasks | PConsume => in_queue_step t pick g s
  end.

Inductive plabel :=
| PCall (t : nat) (c : pcall)
| PRun (t pick : nat)
| PSpurious (t : nat) | PTick | PExpire (t : nat)
| PThrow (t : nat) (disabled : bool).

Definition pstart (t : nat) (c : pcall) (s : pstate) : option pstate :=
  match c with
  | Emit id => Some (set_pstage t (PEmit id) s)
  | Slot id => Some (set_pstage t (PSlot id) s)
  | Enable => Some (set_pstage t PEnable s)
  | Disable => Some (set_pstage t PDisable s)
  | WaitTasks ms => queue_call t (WaitAllConsumed ms) PWaitTasks s (* :117-121 *)
  end.

Definition pstep (s : pstate) (l : plabel) : option pstate :=
  match l with
  | PCall t c => match nth_error (pstages s) t with Some PIdle => pstart t c s | _ => None end
  | PRun t pick => match nth_error (pstages s) t with Some g => prun t pick g s | None => None end
  | PSpurious t => option_map (fun q => set_queue q s) (cstep (queue s) (CSpurious t))
  | PExpire t => option_map (fun q => set_queue q s) (cstep (queue s) (CExpire t))
  | PTick => option_map (fun q => set_queue q s) (cstep (queue s) CTick)
  | PThrow t disabled => (* :149 and :152-155 *)
    match nth_error (pstages s) t with Some (PBody id) => Some (say (EvThrown t id disabled) (set_pstage t PEnded s)) | _ => None end
  end.

Fixpoint psteps (s : pstate) (ls : list plabel) : option pstate :=
  match ls with
  | [] => Some s
  | l :: ls' => match pstep s l with Some s' => psteps s' ls' | None => None end
  end.
