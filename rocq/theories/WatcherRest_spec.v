(** Vocabulary of C158: threads that can go no further. *)
From Verif Require Import Watcher_model Watcher_spec.

(** no thread can go on: neither those of the watcher nor one inside a function *)
Definition at_rest (pass : str -> bool) (s : wstate) : Prop := forall l, own_step l -> wstep pass s l = None.
(** everything is done: every function has returned; if a callback is set and its watcher was created, the file is watched and the callback has been called for all the modifications
    reported; if none is set there is no watcher *)
Definition all_done (s : wstate) : Prop :=
  (forall t p, nth_error (clients s) t = Some p -> p = CIdle) /\
  (last_set (history s) = true -> last_failed (history s) = false -> watched s /\ calls (history s) = reports (history s)) /\
  (last_set (history s) = false -> watching s = WNone /\ calling s = DNone).
