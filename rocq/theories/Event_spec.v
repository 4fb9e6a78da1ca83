(** What is expected of event handlers. *)
From Verif Require Export Event_model.

(** the states reached by [n] threads that only do what is allowed *)
Inductive ereachable (allowed : estate -> elabel -> Prop) (n : nat) : estate -> Prop :=
| er_init : ereachable allowed n (einit n)
| er_step s l s' : ereachable allowed n s -> allowed s l -> estep s l = Some s' -> ereachable allowed n s'.

Definition anything (s : estate) (l : elabel) : Prop := True.
(** callbacks of the user call no function of any handler *)
Definition quiet (s : estate) (l : elabel) : Prop := match l with Call t _ => nth_error (stacks s) t = Some [] | _ => True end.
(** and handlers forward to handlers with greater numbers: there is no cycle of handlers *)
Definition quiet_acyclic (s : estate) (l : elabel) : Prop :=
  quiet s l /\ match l with Call _ (SetCallback h (Forward h')) => h < h' | _ => True end.

(** the number of events of some kind *)
Definition number (p : event -> bool) (ev : list event) : nat := length (filter p ev).
Definition nn (p : event -> bool) (ev : list event) : N := N.of_nat (number p ev).
(** 2^32 *)
Definition M : N := 4294967296.
Definition called (h : nat) (e : event) : bool := match e with VCallback _ h' _ => h' =? h | _ => false end.
Definition counted (h : nat) (e : event) : bool := match e with VCounted _ h' => h' =? h | _ => false end.
Definition decremented (h : nat) (e : event) : bool := match e with VDecrement _ h' => h' =? h | _ => false end.
Definition was_reset (h : nat) (e : event) : bool := match e with VReset _ h' => h' =? h | _ => false end.

(** what happened since the last reset *)
Fixpoint since_reset (h : nat) (ev : list event) : list event :=
  match ev with
  | [] => []
  | e :: ev' => if was_reset h e then [] else e :: since_reset h ev'
  end.

(** the callback that was last set, None if it was unset since *)
Fixpoint last_set (h : nat) (ev : list event) : option cb :=
  match ev with
  | [] => None
  | VSet _ h' c :: ev' => if h' =? h then Some c else last_set h ev'
  | VUnset _ h' :: ev' => if h' =? h then None else last_set h ev'
  | _ :: ev' => last_set h ev'
  end.

(** callbacks that were called and whose event is not counted yet *)
Definition uncounted (h : nat) (f : frame) : nat := match f with ECallback h' _ | EForward h' _ | ECount h' => if h' =? h then 1 else 0 | _ => 0 end.
Definition in_progress (s : estate) (h : nat) : nat := number_of (number_of (uncounted h)) (stacks s).

(** since a call, [mid], the callback was not set at some moment *)
Definition unset_during (h : nat) (mid before : list event) : Prop := exists a b, mid = a ++ b /\ last_set h (b ++ before) = None.

(** a call of wait_for_event: what happened since, [mid], with no other call of this thread *)
Definition last_call (t : nat) (c : call) (ev mid before : list event) : Prop := ev = mid ++ VCall t c :: before /\ forall c', ~ In (VCall t c') mid.

(** a moment of a history: [e] happened after [older] *)
Definition moment (s : estate) (e : event) (older : list event) : Prop := exists newer, history s = newer ++ e :: older.

(** some event is being handled *)
Definition event_frame (f : frame) : bool := match f with ELockI _ | ETest _ | ECallback _ _ | EForward _ _ | ECount _ | ENotify _ | EUnlockI _ => true | _ => false end.
Definition settled (s : estate) : Prop := forall t fs f, nth_error (stacks s) t = Some fs -> In f fs -> event_frame f = false.

(** [parent h]: the MultipleEventHandler in which the handler [h] is registered; it may be registered in another one *)
Inductive above (parent : nat -> option nat) (h : nat) : nat -> Prop :=
| above_parent m : parent h = Some m -> above parent h m
| above_next m m' : above parent h m -> parent m = Some m' -> above parent h m'.
Definition has_handlers (parent : nat -> option nat) (m : nat) : Prop := exists h, parent h = Some m.
(** nobody changes the callbacks of registered handlers, resets or decrements the counters or simulates events of a
    MultipleEventHandler; events occur while the callbacks of those above are set, which is from their construction to
    their destruction, MultipleEventHandler.cpp:26-57 *)
Definition registered (parent : nat -> option nat) (s : estate) (l : elabel) : Prop :=
  match l with
  | Call _ (SetCallback h c) =>
      match parent h with
      | Some m => c = Forward m
      | None => forall h', c = Forward h' -> parent h' = None /\ ~ has_handlers parent h'
      end
  | Call _ (UnsetCallback h) => ~ has_handlers parent h
  | Call _ (ResetEventCount h) | Call _ (DecrementEventCount h) => parent h = None /\ ~ has_handlers parent h
  | Call _ (Occur h) => ~ has_handlers parent h /\ forall m, above parent h m -> is_set (hs s m) = true
  | _ => True
  end.
Definition sum_counts (s : estate) (cs : list nat) : N := fold_right (fun h n => (count (hs s h) + n)%N) 0%N cs.
