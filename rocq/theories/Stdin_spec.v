(** What is expected of handlers of the standard input. *)
From Verif Require Export Stdin_model.

(** how a handler is made: the number of threads of the program, lines_to_read, the lines of the stream given, the flags of the terminal *)
Record setup := { threads : nat; lines : Z; stream : list str; initial : N }.
Definition made (c : setup) : sstate := sinit (threads c) (lines c) (stream c) (initial c).

(** the states reached, with what is allowed *)
Inductive sreachable (c : setup) (allowed : slabel -> Prop) : sstate -> Prop :=
| sr_init : sreachable c allowed (made c)
| sr_step s l s' : sreachable c allowed s -> allowed l -> sstep s l = Some s' -> sreachable c allowed s'.

Definition anything (l : slabel) : Prop := True.
(** the callback does not set or unset its own handler *)
Definition quiet (l : slabel) : Prop := match l with Nested NSet | Nested NUnset => False | _ => True end.
(** set_ignore_input is not called *)
Definition attentive (l : slabel) : Prop := match l with Ignore _ => False | _ => True end.

(** a moment of a history: [e] happened after [older] *)
Definition moment (s : sstate) (e : sevent) (older : list sevent) : Prop := exists newer, history s = newer ++ e :: older.

(** number of calls of read_one_more_line *)
Definition asked (ev : list sevent) : nat := List.length (filter (fun e => match e with VMore => true | _ => false end) ev).
(** number of lines that the handler has started to read *)
Definition begun (ev : list sevent) : nat := List.length (filter (fun e => match e with VBegin => true | _ => false end) ev).
(** number of lines requested in all *)
Definition requested (c : setup) (s : sstate) : Z := (lines c + Z.of_nat (asked (history s)))%Z.

(** the lines ended by the user, oldest first *)
Definition typed (ev : list sevent) : list str := flat_map (fun e => match e with VTyped l => [l] | _ => [] end) (rev ev).
(** the lines passed to the callback *)
Definition called (ev : list sevent) : list str := flat_map (fun e => match e with VCalled l => [l] | _ => [] end) (rev ev).
(** the lines passed to the callback or dropped *)
Definition handled (ev : list sevent) : list str := flat_map (fun e => match e with VCalled l | VDropped l => [l] | _ => [] end) (rev ev).
(** the lines added to the history of commands *)
Definition added (ev : list sevent) : list str := flat_map (fun e => match e with VAdded l => [l] | _ => [] end) (rev ev).
Definition filled (l : str) : bool := match l with [] => false | _ => true end.

(** the handler waits to be asked for a line *)
Definition waiting (s : sstate) : Prop := reader s = TWait /\ enabled s = true /\ value s = 0%N.

(** the callback is called *)
Definition a_call (e : sevent) : Prop := match e with VCalled _ | VSimulated _ => True | _ => False end.
(** the last of: the callback was set, true; the callback was cleared by unset_callback, false *)
Fixpoint last_kept (ev : list sevent) : bool :=
  match ev with
  | [] => false
  | VSetting _ :: _ => true
  | VClearing _ :: _ => false
  | _ :: ev' => last_kept ev'
  end.
(** the last of: a callback was being set, true; unset_callback returned, false *)
Fixpoint last_set (ev : list sevent) : bool :=
  match ev with
  | [] => false
  | VSetting _ :: _ => true
  | VUnset _ :: _ => false
  | _ :: ev' => last_set ev'
  end.

(** the callback is running *)
Definition running (s : sstate) : Prop := (match reader s with TIn _ | TNest _ _ | TSelf => True | _ => False end) \/ exists t, nth_error (clients s) t = Some EIn.

(** a thread that is inside a function *)
Definition inside (p : cpc) : Prop := p <> CIdle.
(** steps that threads take by themselves *)
Definition own_step (l : slabel) : Prop := match l with Reader | Run _ => True | _ => False end.
(** nothing more happens by itself *)
Definition at_rest (s : sstate) : Prop := forall l, own_step l -> sstep s l = None.

(** whatever happens next, except what is excluded, the thread [t] remains inside the function it called *)
Definition blocked (excluded : slabel -> Prop) (s : sstate) (t : nat) : Prop :=
  forall ls s', (forall l, In l ls -> ~ excluded l) -> ssteps s ls = Some s' -> exists p, nth_error (clients s') t = Some p /\ inside p.
Definition nothing_excluded (l : slabel) : Prop := False.
Definition typing (l : slabel) : Prop := match l with Typed _ => True | _ => False end.

(** ** Several handlers *)
(** the sessions of the handlers do not overlap *)
Fixpoint sessions (hs : list nat) : list nat := match hs with [] => [] | h :: hs' => h :: h :: sessions hs' end.
(** the terminal is in the mode for interactive reading: without ISIG, bit 0, ICANON, bit 1, and ECHO, bit 3 *)
Definition is_raw (f : N) : Prop := N.testbit f 0 = false /\ N.testbit f 1 = false /\ N.testbit f 3 = false.
