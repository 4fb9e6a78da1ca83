(** What is expected of periodic event handlers. *)
From Verif Require Export Periodic_model.

(** the states reached, with [n] threads that only do what is allowed *)
Inductive preachable (allowed : plabel -> Prop) (period_time : N) (n : nat) : pstate -> Prop :=
| pr_init : preachable allowed period_time n (pinit period_time n)
| pr_step s l s' : preachable allowed period_time n s -> allowed l -> pstep s l = Some s' -> preachable allowed period_time n s'.

Definition anything (l : plabel) : Prop := True.
(** the callback does not set or unset its own handler *)
Definition quiet (l : plabel) : Prop := match l with Nested _ => False | _ => True end.
(** ... does not unset it *)
Definition no_unset (l : plabel) : Prop := match l with Nested false => False | _ => True end.

(** a moment of a history: [e] happened after [older] *)
Definition moment (s : pstate) (e : pevent) (older : list pevent) : Prop := exists newer, history s = newer ++ e :: older.

(** the callback is called *)
Definition a_call (e : pevent) : Prop := match e with VCalled _ | VSimulated _ => True | _ => False end.
(** the last of: a callback was being set, true; unset_callback returned, false *)
Fixpoint last_set (ev : list pevent) : bool :=
  match ev with
  | [] => false
  | VSetting _ :: _ => true
  | VUnset _ :: _ => false
  | _ :: ev' => last_set ev'
  end.
(** the time at which the period thread last started or finished a call *)
Fixpoint last_mark (ev : list pevent) : option N :=
  match ev with
  | [] => None
  | VStarted n :: _ | VReturned n :: _ => Some n
  | _ :: ev' => last_mark ev'
  end.

(** the callback is running *)
Definition running (s : pstate) : Prop := (match timer s with PIn | PNest _ | PSelf => True | _ => False end) \/ exists t, nth_error (clients s) t = Some EIn.

(** a thread that is inside a function *)
Definition inside (p : cpc) : Prop := p <> CIdle.
(** steps that threads take by themselves *)
Definition own_step (l : plabel) : Prop := match l with Timer | Run _ => True | _ => False end.

(** the times at which the period thread called the callback, oldest first *)
Definition call_times (ev : list pevent) : list N := flat_map (fun e => match e with VCalled n => [n] | _ => [] end) (rev ev).

(** no delays: time passes only while the period thread waits, not beyond the end of the wait, while
    the callback runs or while there is no period thread *)
Definition prompt (s : pstate) (l : plabel) : Prop :=
  match l with
  | Tick d => match timer s with PSleep x => (now s + d <= x)%N | PIn | PNone => True | _ => False end
  | Nested _ => False
  | _ => True
  end.
Inductive punctual (period_time : N) (n : nat) : pstate -> Prop :=
| pu_init : punctual period_time n (pinit period_time n)
| pu_step s l s' : punctual period_time n s -> prompt s l -> pstep s l = Some s' -> punctual period_time n s'.

(** whatever happens next, nothing is reported: no function returns and no callback is called or returns *)
Definition stuck (s : pstate) : Prop := forall ls s', psteps s ls = Some s' -> history s' = history s.

(** what happens without the threads of the program *)
Definition by_itself (l : plabel) : Prop := match l with Tick _ | Timeout | Timer => True | _ => False end.
