(** Vocabulary of C126 and C127: tasks that use their pool, tasks that throw. *)
From Coq Require Import NArith List.
From Verif Require Import Consumer_spec Pool_model Pool_spec.
Import ListNotations.

(** thread [t] of the pool is executing a task *)
Definition in_task (s : pstate) (t : nat) : Prop := exists id, nth_error (pstages s) t = Some (PBody id).

(** The calls that the tasks executed by thread [t] of the pool make to the pool are those of
    the clients [u] with [home u = Some t]: such a client only calls while the thread is
    executing a task, and the task does not end before its call has returned. *)
Definition task_rules (home : nat -> option nat) (s : pstate) (l : plabel) : Prop :=
  match l with
  | PCall u _ => forall t, home u = Some t -> in_task s t
  | PRun t _ | PThrow t _ => in_task s t -> forall u, home u = Some t -> nth_error (pstages s) u = Some PIdle
  | _ => True
  end.

(** the client 1 stands for the tasks of the thread 2 *)
Definition one_home (u : nat) : option nat := if Nat.eqb u 1 then Some 2 else None.

(** the states that follow [s0] by such steps that are also [allowed] *)
Inductive texec (home : nat -> option nat) (allowed : plabel -> pstate -> Prop) (s0 : pstate) : pstate -> Prop :=
| texec_init : texec home allowed s0 s0
| texec_step s l s' : texec home allowed s0 s -> task_rules home s l -> pstep s l = Some s' -> allowed l s' -> texec home allowed s0 s'.

Definition all_allowed (l : plabel) (s' : pstate) : Prop := True.
(** nobody disables the pool, and fewer than 2^32 tasks are in its queue *)
Definition kept_enabled (l : plabel) (s' : pstate) : Prop := never_disabled l /\ (N.of_nat (in_queue (queue s')) < 2 ^ 32)%N.

(** the threads that are inside an operation of the pool, not executing a task *)
Definition inside_operation (g : pstage) : bool :=
  match g with PEmit _ | PProduce _ | PSlot _ | PQueueOff | PWaitTasks | PConsume => true | _ => false end.

(** [ls] are steps of such threads, and of nobody else *)
Fixpoint only_operations (s : pstate) (ls : list plabel) : Prop :=
  match ls with
  | [] => True
  | l :: ls' => exists t pick g s', l = PRun t pick /\ nth_error (pstages s) t = Some g /\ inside_operation g = true /\
      pstep s l = Some s' /\ only_operations s' ls'
  end.

(** tasks that an exception left, and threads of the pool that have ended *)
Definition thrown (s : pstate) : list nat :=
  flat_map (fun e => match e with EvThrown _ id _ => [id] | _ => [] end) (rev (events s)).
Definition ended (g : pstage) : bool := match g with PEnded => true | _ => false end.

(** no thread of the pool is alive, nor about to be created, nor is the pool about to be disabled *)
Definition orphaned (s : pstate) : Prop := pool_enabled s = true /\
  forall t g, nth_error (pstages s) t = Some g -> pool_thread g = false /\ match g with PSpawn _ | PDisable => False | _ => True end.
