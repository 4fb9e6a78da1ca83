(** What is expected of log event handlers. *)
From Verif Require Export LogEvent_model.

(** the states reached by a handler of class [cl] when the verbosity of the log is [v] before, with what is allowed *)
Inductive lreachable (cl : class) (v : kind) (allowed : lstate -> llabel -> Prop) : lstate -> Prop :=
| lr_init : lreachable cl v allowed (linit v)
| lr_step x l x' : lreachable cl v allowed x -> allowed x l -> lstep cl x l = Some x' -> lreachable cl v allowed x'.

Definition always (x : lstate) (l : llabel) : Prop := True.
(** entries are given to the handler only after its constructor returned and before its destructor is called *)
Definition settled (x : lstate) (l : llabel) : Prop :=
  match l with
  | Take => In VConstructed (history x) /\ ~ In VDestroying (history x)
  | Destroy => logger x = LIdle
  | _ => True
  end.
(** no other severe handler is constructed *)
Definition alone (x : lstate) (l : llabel) : Prop := match l with Other _ => False | _ => True end.

(** a moment of a history: [e] happened after [older] *)
Definition moment (x : lstate) (e : levent) (older : list levent) : Prop := exists newer, history x = newer ++ e :: older.

(** what the log thread does to the handler *)
Definition touches (e : levent) : Prop := match e with VStored _ | VCalled _ | VReturned | VDangling | VIndeterminate => True | _ => False end.

(** the entries a handler of a class is meant for *)
Definition meant (cl : class) (e : entry) : bool := match cl with PlainHandler => true | SevereHandler k => kle (level e) k end.

(** the entries given to the handler, stored and passed to the callback, oldest first *)
Definition taken (ev : list levent) : list entry := flat_map (fun e => match e with VTaken n => [n] | _ => [] end) (rev ev).
Definition stored (ev : list levent) : list entry := flat_map (fun e => match e with VStored n => [n] | _ => [] end) (rev ev).
Definition called (ev : list levent) : list entry := flat_map (fun e => match e with VCalled n => [n] | _ => [] end) (rev ev).
(** number of calls of the callback that have returned *)
Definition returns (ev : list levent) : nat := List.length (filter (fun e => match e with VReturned => true | _ => false end) ev).

(** [a] is [b] without some of its elements *)
Inductive subsequence {A} : list A -> list A -> Prop :=
| sub_nil : subsequence [] []
| sub_skip a b x : subsequence a b -> subsequence a (b ++ [x])
| sub_keep a b x : subsequence a b -> subsequence (a ++ [x]) (b ++ [x]).

(** the last of: a callback was set, true; unset_callback returned, false *)
Fixpoint last_set (ev : list levent) : bool :=
  match ev with
  | [] => false
  | VSet :: _ => true
  | VUnset :: _ => false
  | _ :: ev' => last_set ev'
  end.

(** the callback is running *)
Definition running (x : lstate) : Prop := exists e, logger x = LIn e.
(** the owner is inside a function of the handler *)
Definition inside (x : lstate) : Prop := owner x <> OLive /\ owner x <> OGone.
(** steps that the threads take by themselves *)
Definition own_step (l : llabel) : Prop := match l with Take | Consume | Run => True | _ => False end.
