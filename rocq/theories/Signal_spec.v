(** What is expected of the signal manager and of signal handlers. *)
From Coq Require Import Sorted.
From Verif Require Export Signal_model.

(** the states reached by [n] threads that only do what is allowed *)
Inductive sreachable (allowed : slabel -> Prop) (n : nat) : sstate -> Prop :=
| sr_init : sreachable allowed n (sinit n)
| sr_step s l s' : sreachable allowed n s -> allowed l -> sstep s l = Some s' -> sreachable allowed n s'.

Definition anything (l : slabel) : Prop := True.
(** callbacks call no function of the manager *)
Definition quiet (l : slabel) : Prop := l <> Nested.
(** only signal handlers unregister *)
Definition no_unregister (l : slabel) : Prop := match l with Call _ (Unregister _) => False | _ => True end.

(** how often something happened *)
Definition number (p : sevent -> bool) (ev : list sevent) : N := N.of_nat (length (filter p ev)).
Definition arrival (e : sevent) : bool := match e with VArrive => true | _ => false end.
Definition dispatch (e : sevent) : bool := match e with VDispatch => true | _ => false end.
Definition registration (e : sevent) : bool := match e with VRegistered _ _ _ => true | _ => false end.

(** signals that arrived and are not dispatched yet, according to the manager *)
Definition pending (s : sstate) : N := received s + match manager s with MDispatch => 1 | _ => 0 end.

(** the function registered with an identifier, according to what happened, newest first *)
Fixpoint registered (ev : list sevent) (id : N) : option fn :=
  match ev with
  | [] => None
  | VRegistered _ i f :: ev' => if N.eqb i id then Some f else registered ev' id
  | VUnregistered _ i :: ev' => if N.eqb i id then None else registered ev' id
  | _ :: ev' => registered ev' id
  end.

(** the functions called, in order of time *)
Definition called (ev : list sevent) : list (N * fn) := flat_map (fun e => match e with VCall id f => [(id, f)] | _ => [] end) (rev ev).

(** one dispatch, from the lock of the mutex to the end *)
Definition one_dispatch (mid : list sevent) : Prop := forall e, In e mid -> e <> VDispatch /\ e <> VFinished.
(** every registered function once, in the order of the identifiers *)
Definition calls_all (calls : list (N * fn)) (before : list sevent) : Prop :=
  StronglySorted (fun a b => (fst a < fst b)%N) calls /\ forall id f, In (id, f) calls <-> registered before id = Some f.

(** a moment of a history: [e] happened after [older] *)
Definition moment (s : sstate) (e : sevent) (older : list sevent) : Prop := exists newer, history s = newer ++ e :: older.

(** the thread of the manager is calling a registered function *)
Definition in_call (p : mpc) : bool := match p with MWant _ _ | MIn _ _ | MNested _ _ => true | _ => false end.
(** ... the one of the signal handler [h] *)
Definition in_call_of (h : nat) (p : mpc) : bool := match p with MWant h' _ | MIn (Of h') _ | MNested (Of h') _ => h' =? h | _ => false end.

(** the last that returned of set_callback, true, and unset_callback, false, of the signal handler [h] *)
Fixpoint last_set (h : nat) (ev : list sevent) : bool :=
  match ev with
  | [] => false
  | VSet _ h' :: ev' => if h' =? h then true else last_set h ev'
  | VUnset _ h' :: ev' => if h' =? h then false else last_set h ev'
  | _ :: ev' => last_set h ev'
  end.
(** a thread is in set_callback or unset_callback of the signal handler [h] *)
Definition changing (h : nat) (p : cpc) : bool :=
  match p with
  | SLock h' | SSet h' | SFlag h' | SRegister h' | SUnlock h' | ULock h' | UClear h' | UFlag h' | UUnregister h' | UUnlock h' => h' =? h
  | _ => false
  end.

(** a thread that is inside a function *)
Definition inside (p : cpc) : bool := match p with CIdle | DDone => false | _ => true end.
(** steps that threads take by themselves *)
Definition own_step (l : slabel) : Prop := match l with Manager | Run _ => True | _ => False end.
