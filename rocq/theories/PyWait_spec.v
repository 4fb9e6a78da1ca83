(** What is expected of the wait handlers of py_utils. *)
From Verif Require Export PyWait_model.

(** the states reached from a handler constructed with [e] and [v], with [n] threads and what is allowed *)
Inductive reachable (e : bool) (v : Z) (n : nat) (allowed : label -> Prop) : state -> Prop :=
| r_init : reachable e v n allowed (init e v n)
| r_step s l s' : reachable e v n allowed s -> allowed l -> step s l = Some s' -> reachable e v n allowed s'.

Definition anything (l : label) : Prop := True.
(** blocking_disable is not called *)
Definition plain (l : label) : Prop := match l with Call _ BlockingDisable => False | _ => True end.

(** the thread [t] is inside wait with the predicate [p] *)
Definition waits_for (s : state) (t : nat) (p : predicate) : Prop :=
  (exists d, nth_error (threads s) t = Some (Enter (Wait p d))) \/ (exists d, nth_error (threads s) t = Some (WSleep p d)) \/ (exists d, nth_error (threads s) t = Some (WWake p d)).
(** when the last wait of [t] that blocked began, and its timeout *)
Fixpoint last_waits (t : nat) (ev : list event) : option (N * option N) :=
  match ev with
  | [] => None
  | VWaits u a d :: ev' => if Nat.eqb u t then Some (a, d) else last_waits t ev'
  | _ :: ev' => last_waits t ev'
  end.

(** the value and whether the handler is enabled, from what was done, in order *)
Fixpoint value_after (v : Z) (ev : list event) : Z :=
  match ev with
  | [] => v
  | VSet x :: _ => x
  | VAdd d :: ev' => (value_after v ev' + d)%Z
  | _ :: ev' => value_after v ev'
  end.
(** an event: [e] happened after [older] *)
Definition moment (s : state) (e : event) (older : list event) : Prop := exists newer, history s = newer ++ e :: older.

(** steps that threads take by themselves *)
Definition own_step (l : label) : Prop := match l with Run _ | Expire _ => True | _ => False end.
(** nothing more happens by itself, except that time passes *)
Definition at_rest (s : state) : Prop := forall l, own_step l -> step s l = None.
(** whatever happens next, no function returns *)
Definition stuck (s : state) : Prop := forall ls s', steps s ls = Some s' -> history s' = history s.
