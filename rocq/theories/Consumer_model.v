(** Model of cpp_utils/include/cpp_utils/wait/impl/ConsumerWaitHandler.ipp,
    wait/impl/DBQueueWaitHandler.ipp and queue/DBQueue.hpp, on top of the counter of
    Wait_model: any number of threads call produce, consume and the other operations.

    Each member function of DBQueue locks its mutexes for all its duration and is one step.
    [get_next_value_] copies the front element through a reference, outside the mutex: the
    copy is part of the [front] step (simplification; only the owner of
    [pop_queue_mutex_] changes the foreground queue). *)
From Coq Require Import NArith.
From Verif Require Export Wait_model.

Section Consumer.
Variable T : Type.

Inductive call :=
| Produce (x : T)
| Consume (timeout : nat)
| WaitAllConsumed (timeout : nat)
| ElementsReady
| Switch (k : control).

(** where a thread is, outside the counter *)
Inductive stage :=
| SIdle
| SPush (x : T)       (* before add_value_ in produce, ConsumerWaitHandler.ipp:47, 55 *)
| SIncrement          (* inside operator ++ of the counter *)
| SWait               (* inside wait_and_decrement in consume, :63 *)
| SOther              (* inside another operation of the counter *)
| SPop                (* before pop_queue_mutex_, DBQueueWaitHandler.ipp:46 *)
| SEmpty              (* before the first empty(), :49 *)
| SSwap               (* before swap, :52 *)
| SEmpty2             (* before the second empty(), :56 *)
| SFront              (* before front, :62 *)
| SDrop (x : T).      (* before pop, :63 *)

Inductive result :=
| RValue (t : nat) (x : T)      (* consume returned x *)
| RThrow (t : nat) (r : reason) (* consume threw DisabledException or TimeoutException *)
| RInconsistent (t : nat)       (* consume threw InconsistencyException *)
| RUndefined (t : nat).         (* front or pop of an empty queue *)

Record cstate := {
  handler : state N;              (* the counter and the threads inside it *)
  foreground : list T; background : list T;
  pop_mutex : option nat;
  stages : list stage;
  produced : list T;              (* all elements pushed so far, in order *)
  results : list result }.        (* last first *)

(** ConsumerWaitHandler.ipp:28-35, DBQueue.hpp:40-44 *)
Definition cinit (initial_value : N) (en : bool) (n : nat) : cstate :=
  {| handler := init initial_value en n; foreground := []; background := []; pop_mutex := None;
     stages := repeat SIdle n; produced := []; results := [] |}.

Definition set_handler (h : state N) (s : cstate) : cstate :=
  {| handler := h; foreground := foreground s; background := background s; pop_mutex := pop_mutex s;
     stages := stages s; produced := produced s; results := results s |}.
Definition set_queues (fg bg : list T) (s : cstate) : cstate :=
  {| handler := handler s; foreground := fg; background := bg; pop_mutex := pop_mutex s;
     stages := stages s; produced := produced s; results := results s |}.
Definition set_pop (m : option nat) (s : cstate) : cstate :=
  {| handler := handler s; foreground := foreground s; background := background s; pop_mutex := m;
     stages := stages s; produced := produced s; results := results s |}.
Definition set_stage (t : nat) (g : stage) (s : cstate) : cstate :=
  {| handler := handler s; foreground := foreground s; background := background s; pop_mutex := pop_mutex s;
     stages := upd (stages s) t g; produced := produced s; results := results s |}.
Definition set_produced (l : list T) (s : cstate) : cstate :=
  {| handler := handler s; foreground := foreground s; background := background s; pop_mutex := pop_mutex s;
     stages := stages s; produced := l; results := results s |}.
Definition report (r : result) (s : cstate) : cstate :=
  {| handler := handler s; foreground := foreground s; background := background s; pop_mutex := pop_mutex s;
     stages := stages s; produced := produced s; results := r :: results s |}.

(** the counter operation that a call begins with, and the stage of the thread inside it *)
Definition begin (c : call) : stage * option (op N) :=
  match c with
  | Produce x => (SPush x, None)
  | Consume ms => (SWait, Some (WaitAndDecrement ms))
  | WaitAllConsumed ms => (SOther, Some (WaitThreshold ms))
  | ElementsReady => (SOther, Some GetValue)
  | Switch k => (SOther, Some (Control k))
  end.

(** the counter of a ConsumerWaitHandler: threshold 0 *)
Definition hstep := c_step 0.

(** a step of thread [t] outside the counter *)
Definition queue_step (t : nat) (g : stage) (s : cstate) : option cstate :=
  match g with
  | SIdle | SIncrement | SWait | SOther => None
  | SPush x => (* DBQueue.hpp:61-74, then operator ++ begins *)
    match hstep (handler s) (Call t Increment) with
    | Some h => Some (set_stage t SIncrement (set_handler h (set_produced (produced s ++ [x])
        (set_queues (foreground s) (background s ++ [x]) s))))
    | None => None
    end
  | SPop => if free (pop_mutex s) then Some (set_stage t SEmpty (set_pop (Some t) s)) else None
  | SEmpty => (* DBQueue.hpp:114-118 *)
    Some (set_stage t (match foreground s with [] => SSwap | _ => SEmpty2 end) s)
  | SSwap => (* DBQueue.hpp:47-58: clears the foreground queue, then swaps *)
    Some (set_stage t SEmpty2 (set_queues (background s) [] s))
  | SEmpty2 =>
    match foreground s with
    | [] => Some (report (RInconsistent t) (set_stage t SIdle (set_pop None s)))
    | _ => Some (set_stage t SFront s)
    end
  | SFront => (* DBQueue.hpp:78-82 *)
    match foreground s with
    | [] => Some (report (RUndefined t) (set_stage t SIdle (set_pop None s)))
    | x :: _ => Some (set_stage t (SDrop x) s)
    end
  | SDrop x => (* DBQueue.hpp:91-95 *)
    match foreground s with
    | [] => Some (report (RUndefined t) (set_stage t SIdle (set_pop None s)))
    | _ :: fg => Some (report (RValue t x) (set_stage t SIdle (set_pop None (set_queues fg (background s) s))))
    end
  end.

(** what a thread does when its counter operation has returned (it is idle again there) *)
Definition returned (t : nat) (g : stage) (s : cstate) : cstate :=
  match g with
  | SWait => (* ConsumerWaitHandler.ipp:63-79 *)
    match log (handler s) with
    | EvReturn _ _ ConditionMet :: _ => set_stage t SPop s
    | EvReturn _ _ r :: _ => report (RThrow t r) (set_stage t SIdle s)
    | _ => s
    end
  | _ => set_stage t SIdle s
  end.

Inductive clabel :=
| CCall (t : nat) (c : call)
| CQueue (t : nat)           (* a step outside the counter *)
| CRun (t pick : nat)        (* a step inside the counter *)
| CSpurious (t : nat) | CExpire (t : nat) | CTick.

Definition cstep (s : cstate) (l : clabel) : option cstate :=
  match l with
  | CCall t c =>
    match nth_error (stages s) t with
    | Some SIdle =>
      let (g, o) := begin c in
      match o with
      | None => Some (set_stage t g s)
      | Some o => match hstep (handler s) (Call t o) with Some h => Some (set_stage t g (set_handler h s)) | None => None end
      end
    | _ => None
    end
  | CQueue t => match nth_error (stages s) t with Some g => queue_step t g s | None => None end
  | CRun t pick =>
    match nth_error (stages s) t, hstep (handler s) (Run t pick) with
    | Some g, Some h =>
      let s := set_handler h s in
      match nth_error (threads h) t with
      | Some Idle => Some (returned t g s)
      | _ => Some s
      end
    | _, _ => None
    end
  | CSpurious t => option_map (fun h => set_handler h s) (hstep (handler s) (Spurious t))
  | CExpire t => option_map (fun h => set_handler h s) (hstep (handler s) (Expire t))
  | CTick => option_map (fun h => set_handler h s) (hstep (handler s) Tick)
  end.

Fixpoint csteps (s : cstate) (ls : list clabel) : option cstate :=
  match ls with
  | [] => Some s
  | l :: ls' => match cstep s l with Some s' => csteps s' ls' | None => None end
  end.
End Consumer.
Arguments Produce {T}. Arguments Consume {T}. Arguments WaitAllConsumed {T}. Arguments ElementsReady {T}. Arguments Switch {T}.
Arguments SIdle {T}. Arguments SPush {T}. Arguments SIncrement {T}. Arguments SWait {T}. Arguments SOther {T}.
Arguments SPop {T}. Arguments SEmpty {T}. Arguments SSwap {T}. Arguments SEmpty2 {T}. Arguments SFront {T}. Arguments SDrop {T}.
Arguments RValue {T}. Arguments RThrow {T}. Arguments RInconsistent {T}. Arguments RUndefined {T}.
Arguments handler {T}. Arguments foreground {T}. Arguments background {T}. Arguments pop_mutex {T}. Arguments stages {T}.
Arguments produced {T}. Arguments results {T}. Arguments cinit {T}.
Arguments set_handler {T}. Arguments set_queues {T}. Arguments set_pop {T}. Arguments set_stage {T}. Arguments set_produced {T}. Arguments report {T}.
Arguments begin {T}. Arguments queue_step {T}. Arguments returned {T}. Arguments cstep {T}. Arguments csteps {T}.
Arguments CCall {T}. Arguments CQueue {T}. Arguments CRun {T}. Arguments CSpurious {T}. Arguments CExpire {T}. Arguments CTick {T}.
