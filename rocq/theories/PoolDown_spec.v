(** Vocabulary of C152. *)
From Coq Require Import List.
From Verif Require Import Pool_model.

(** a thread is inside disable *)
Definition disabling (g : pstage) : bool := match g with PDisable | PQueueOff | PJoin _ => true | _ => false end.
(** a thread goes on with what it is doing: no call begins, nobody wakes up for no reason, no time out expires, no task throws *)
Definition goes_on (l : plabel) : Prop := exists t pick, l = PRun t pick.
(** no thread can go on *)
Definition at_rest (s : pstate) : Prop := forall t pick, pstep s (PRun t pick) = None.
