(** What is expected of file watcher event handlers. *)
From Verif Require Export Watcher_model.

(** the states reached, with [n] threads and what is allowed *)
Inductive wreachable (pass : str -> bool) (allowed : wlabel -> Prop) (n : nat) : wstate -> Prop :=
| wr_init : wreachable pass allowed n (winit n)
| wr_step s l s' : wreachable pass allowed n s -> allowed l -> wstep pass s l = Some s' -> wreachable pass allowed n s'.

Definition anything (l : wlabel) : Prop := True.
(** the callback does not set or unset its own handler *)
Definition quiet (l : wlabel) : Prop := match l with Nested _ => False | _ => True end.
(** ... and the watched directory is not removed *)
Definition calm (l : wlabel) : Prop := match l with Nested _ | Gone => False | _ => True end.

(** a moment of a history: [e] happened after [older] *)
Definition moment (s : wstate) (e : wevent) (older : list wevent) : Prop := exists newer, history s = newer ++ e :: older.

(** the callback is called *)
Definition a_call (e : wevent) : Prop := match e with VCalled _ | VSimulated _ => True | _ => False end.
(** the last of: a callback was being set, true; unset_callback returned, false *)
Fixpoint last_set (ev : list wevent) : bool :=
  match ev with
  | [] => false
  | VSetting _ :: _ => true
  | VUnset _ :: _ => false
  | _ :: ev' => last_set ev'
  end.
(** the creation of the watcher failed the last time *)
Fixpoint last_failed (ev : list wevent) : bool :=
  match ev with
  | [] => false
  | VCreated :: _ => false
  | VFailed :: _ => true
  | _ :: ev' => last_failed ev'
  end.

(** the events since the watcher was created *)
Fixpoint since (ev : list wevent) : list wevent :=
  match ev with
  | [] => []
  | VCreated :: _ => []
  | e :: ev' => e :: since ev'
  end.
(** the modifications reported to the watcher and the calls for them, oldest first *)
Definition reports (ev : list wevent) : list str := flat_map (fun e => match e with VReported n => [n] | _ => [] end) (rev (since ev)).
Definition calls (ev : list wevent) : list str := flat_map (fun e => match e with VCalled n => [n] | _ => [] end) (rev (since ev)).

(** the callback is running *)
Definition running (s : wstate) : Prop := (match calling s with DIn _ | DNest _ _ | DSelf => True | _ => False end) \/ exists t, nth_error (clients s) t = Some EIn.
(** the file is being watched *)
Definition watched (s : wstate) : Prop := watching s <> WNone /\ watching s <> WEnded /\ calling s <> DNone /\ calling s <> DEnded.

(** a thread that is inside a function *)
Definition inside (p : cpc) : Prop := p <> CIdle.
(** steps that threads take by themselves *)
Definition own_step (l : wlabel) : Prop := match l with Read _ | Watch | Caller | Start _ _ | Run _ => True | _ => False end.

(** the watching thread reads from a kernel that has nothing more to say *)
Definition deaf (s : wstate) : Prop := watching s = WRead /\ kqueue s = [] /\ watch s = false.
(** the other thread sleeps and nobody is left to wake it *)
Definition forgotten (s : wstate) : Prop := calling s = DSleep /\ watching s = WEnded.

(** whatever happens next, except that a sleeping thread wakes up for no reason, nothing is reported: no
    function returns and no callback is called or returns *)
Definition stuck (pass : str -> bool) (s : wstate) : Prop := forall ls s', ~ In Spurious ls -> wsteps pass s ls = Some s' -> history s' = history s.
(** whatever happens next, the thread [t] remains inside the function it called and the callback remains running *)
Definition blocked_forever (pass : str -> bool) (s : wstate) (t : nat) : Prop :=
  forall ls s', wsteps pass s ls = Some s' -> running s' /\ exists p, nth_error (clients s') t = Some p /\ inside p.
(** the callback does not unset its own handler *)
Definition no_unset (l : wlabel) : Prop := match l with Nested false => False | _ => True end.

(** the states reached when, besides, nothing comes between the test of the thread that calls the callback and its sleep *)
Inductive wtight (pass : str -> bool) (n : nat) : wstate -> Prop :=
| wt_init : wtight pass n (winit n)
| wt_step s l s' : wtight pass n s -> calm l -> (calling s = DBlock -> l = Caller) -> wstep pass s l = Some s' -> wtight pass n s'.
