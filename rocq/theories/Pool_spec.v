(** Vocabulary for executions of a thread pool. *)
From Coq Require Import NArith List Bool.
From Verif Require Import Consumer_spec Pool_model.
Import ListNotations.

(** every execution whose labels are [allowed] *)
Inductive preachable (allowed : plabel -> Prop) (s0 : pstate) : pstate -> Prop :=
| preach_init : preachable allowed s0 s0
| preach_step s l s' : preachable allowed s0 s -> allowed l -> pstep s l = Some s' -> preachable allowed s0 s'.

Definition any_label (l : plabel) : Prop := True.
Definition never_disabled (l : plabel) : Prop := match l with PCall _ Disable => False | _ => True end.

(** every execution with fewer than 2^32 tasks in the queue at any time *)
Inductive pbounded (s0 : pstate) : pstate -> Prop :=
| pbounded_init : pbounded s0 s0
| pbounded_step s l s' : pbounded s0 s -> pstep s l = Some s' -> (N.of_nat (in_queue (queue s')) < 2 ^ 32)%N -> pbounded s0 s'.

(** the identifiers emitted, taken from the queue, and executed, in order *)
Definition emitted (s : pstate) : list nat := produced (queue s).
Definition taken (s : pstate) : list nat := consumed (queue s).
Definition started (s : pstate) : list nat :=
  flat_map (fun e => match e with EvStart _ id => [id] | _ => [] end) (rev (events s)).
Definition finished (s : pstate) : list nat :=
  flat_map (fun e => match e with EvEnd _ id | EvThrown _ id _ => [id] | _ => [] end) (rev (events s)).

Definition times (id : nat) (l : list nat) : nat := count_occ PeanoNat.Nat.eq_dec l id.

(** a thread of the pool that has not ended; a thread inside emit *)
Definition pool_thread (g : pstage) : bool := match g with PLoop | PConsume | PTask _ | PBody _ => true | _ => false end.
Definition emitting (g : pstage) : bool := match g with PProduce _ => true | _ => false end.
Definition number (f : pstage -> bool) (s : pstate) : nat := length (filter f (pstages s)).

(** the queue of the pool is disabled *)
Definition queue_off (s : pstate) : Prop := enabled (handler (queue s)) = false.

(** thread [t] is asleep inside an operation of the queue *)
Definition asleep (s : pstate) (t : nat) : Prop := exists w dl, nth_error (threads (handler (queue s))) t = Some (WSleep w dl).
