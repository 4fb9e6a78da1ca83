(** What is expected of command readers. *)
From Verif Require Export Commands_model.

(** the states reached with [n] threads that read commands and what is allowed *)
Inductive rreachable (n : nat) (allowed : rlabel -> Prop) : rstate -> Prop :=
| rr_init : rreachable n allowed (rinit n)
| rr_step x a x' : rreachable n allowed x -> allowed a -> rstep x a = Some x' -> rreachable n allowed x'.

Definition anything (a : rlabel) : Prop := True.
(** lines are requested by read_next_command only *)
Definition plain (a : rlabel) : Prop := match a with Extra => False | _ => True end.

Definition typed (ev : list revent) : list str := flat_map (fun e => match e with VTyped l => [l] | _ => [] end) (rev ev).
(** the lines got by read_next_command *)
Definition commands (ev : list revent) : list str := flat_map (fun e => match e with VCommand _ l => [l] | _ => [] end) (rev ev).
Definition calls (ev : list revent) : nat := List.length (filter (fun e => match e with VCall _ => true | _ => false end) ev).
Definition begun (ev : list revent) : nat := List.length (filter (fun e => match e with VBegin => true | _ => false end) ev).

(** no thread is inside read_next_command *)
Definition all_idle (x : rstate) : Prop := forall t p, nth_error (readers x) t = Some p -> p = RIdle.
(** steps that threads take by themselves *)
Definition own_step (a : rlabel) : Prop := match a with Thread | Run _ | Owner => True | _ => False end.
(** nothing more happens by itself *)
Definition at_rest (x : rstate) : Prop := forall a, own_step a -> rstep x a = None.
(** the destructor does not return unless the user ends a line *)
Definition stuck_until_typed (x : rstate) : Prop := forall ls x', (forall l, ~ In (Typed l) ls) -> rsteps x ls = Some x' -> ~ In VGone (history x').
Definition calls_by (t : nat) (ev : list revent) : nat := List.length (filter (fun e => match e with VCall u => Nat.eqb u t | _ => false end) ev).
Definition commands_by (t : nat) (ev : list revent) : nat := List.length (filter (fun e => match e with VCommand u _ => Nat.eqb u t | _ => false end) ev).
