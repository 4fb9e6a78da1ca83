(** Vocabulary of C156: threads that can go no further. *)
From Verif Require Import Signal_model.

(** threads go on: the thread of the manager, one inside a function, or one that handles a signal that was counted; no function is called, no signal arrives, nobody wakes up without a
    reason, and callbacks call nothing *)
Definition goes_on (l : slabel) : Prop := l = Manager \/ l = Notify \/ exists t, l = Run t.
(** none of them can *)
Definition at_rest (s : sstate) : Prop := forall l, goes_on l -> sstep s l = None.
(** the manager is not destroyed, and callbacks call no function of it *)
Definition alive (l : slabel) : Prop := l <> Nested /\ forall t, l <> Call t Destroy.
