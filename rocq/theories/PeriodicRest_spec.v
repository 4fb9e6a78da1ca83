(** Vocabulary of C157: threads that can go no further before time passes. *)
From Verif Require Import Periodic_model.

(** threads go on: the period thread, also because the end of its wait has come, or one inside a function; no function is called, no time passes, nobody wakes up without a reason, and the
    callback calls nothing *)
Definition goes_on (l : plabel) : Prop := l = Timer \/ l = Timeout \/ exists t, l = Run t.
(** none of them can *)
Definition at_rest (s : pstate) : Prop := forall l, goes_on l -> pstep s l = None.
