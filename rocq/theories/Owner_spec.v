(** What is expected of owners, lessees and guards. *)
From Verif Require Export Owner_model.

(** the states reached by [n] threads that only do what is allowed *)
Inductive mreachable (allowed : mstate -> mlabel -> Prop) (n : nat) : mstate -> Prop :=
| mr_init : mreachable allowed n (minit n)
| mr_step s l s' : mreachable allowed n s -> allowed s l -> mstep s l = Some s' -> mreachable allowed n s'.

Definition anything (s : mstate) (l : mlabel) : Prop := True.
(** data is never used by operator -> and * of a lessee *)
Definition no_arrow (s : mstate) (l : mlabel) : Prop := match l with CallLock _ _ Arrow => False | _ => True end.
(** no guard is assigned over while it holds data *)
Definition no_overwrite (s : mstate) (l : mlabel) : Prop :=
  match l with AssignGuard g g' => g = g' \/ nth_error (guards s) g = Some None | _ => True end.

(** some guard exists: an object, or one inside a function that has not returned *)
Definition guarding (p : mpc) (c : nat) : Prop := p = MCheckX c \/ p = MCheckA c \/ p = MRaw c.
Definition guarded (s : mstate) (c : nat) : Prop :=
  (exists g, nth_error (guards s) g = Some (Some c)) \/ (exists t p, nth_error (mpcs s) t = Some p /\ guarding p c).
(** some owner has the data *)
Definition has_owner (s : mstate) (c : nat) : Prop := exists o, nth_error (owners s) o = Some (Some c).
(** no thread asks a lessee whether it still has data *)
Definition no_ask (s : mstate) (l : mlabel) : Prop := match l with AskLessee _ => False | _ => True end.
