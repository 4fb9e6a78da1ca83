(** Vocabulary for executions of wait handlers. *)
From Coq Require Import List.
From Verif Require Import Wait_model.
Import ListNotations.

Section Spec.
Variables (V : Type) (above reached : V -> bool) (incr decr : V -> V).

(** the states of the executions all of whose steps are [allowed] *)
Inductive reachable (allowed : state V -> label V -> Prop) (s0 : state V) : state V -> Prop :=
| reach_init : reachable allowed s0 s0
| reach_step s l s' : reachable allowed s0 s -> allowed s l ->
    step above reached incr decr s l = Some s' -> reachable allowed s0 s'.

Definition anything (s : state V) (l : label V) : Prop := True.

(** a thread asleep, or awake but not yet running again, or running inside a wait; the last
    two pcs are those of a thread that has left the wait and not yet returned *)
Definition blocked_in_wait (p : pc V) : bool :=
  match p with WTest _ _ | WSleep _ _ | WWoken _ _ _ | WFinal _ _ | WExit _ _ _ => true | _ => false end.
Definition inside_wait (p : pc V) : bool :=
  match p with WReason _ _ _ | WRet _ _ => true | _ => blocked_in_wait p end.

(** about to call notify_all on the main condition variable *)
Definition about_to_notify (p : pc V) : bool :=
  match p with VNotify | DNotify _ | BNotify _ => true | _ => false end.
End Spec.
Arguments reachable {V}. Arguments anything {V}. Arguments blocked_in_wait {V}. Arguments inside_wait {V}.
Arguments about_to_notify {V}.

(** Clients of a plain wait handler (WaitHandler, IntWaitHandler, BooleanWaitHandler) that
    wait for the given conditions only, and that set a value without notifying only if it
    fulfils none of them. *)
Definition plain_client {V} (conditions : (V -> bool) -> Prop) (s : state V) (l : label V) : Prop :=
  match l with
  | Call _ (Wait p _) => conditions p
  | Call _ (SetValue v false) => forall p, conditions p -> p v = false
  | Call _ (WaitAndDecrement _) | Call _ (WaitThreshold _) | Call _ Increment => False
  | _ => True
  end.

(** Clients of a counter *)
Definition counter_client {V} (s : state V) (l : label V) : Prop :=
  match l with
  | Call _ (Wait _ _) | Call _ (SetValue _ _) | Call _ (Modify _) => False
  | _ => True
  end.

(** a thread that waits to take a unit, awake *)
Definition awake_taker {V} (p : pc V) : bool :=
  match p with
  | WTest w _ | WWoken w _ _ | WFinal w _ | WExit w _ _ | WReason w _ _ => w_take w
  | _ => false
  end.

(** ... whose increments never make the value equal to the threshold *)
Definition threshold_client {V} (reached : V -> bool) (incr : V -> V) (s : state V) (l : label V) : Prop :=
  counter_client s l /\
  match l with
  | Run t _ => nth_error (threads s) t = Some ILock -> reached (incr (value s)) = false
  | _ => True
  end.

(** inside the loop of blocking_disable that waits for the waiting threads to leave *)
Definition in_disable_loop {V} (p : pc V) : bool := match p with BLoop _ | BMutex _ | BNotify _ => true | _ => false end.
