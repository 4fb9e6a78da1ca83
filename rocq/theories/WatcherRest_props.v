(** Theorems of C158. *)
From Verif Require Import Watcher_model Watcher_spec Watcher_proofs Watcher_props WatcherRest_spec WatcherRest_proofs.

(** C158. While the directory is there, and for callbacks that do not use their own handler: whatever the threads do, they can go on only finitely often until somebody calls a function
    or something happens to the files; when none can go on, and the thread that calls was not forgotten in its sleep, everything is done. *)
Theorem C158_rest_partial : forall pass n x, wreachable pass calm n x -> exists bound, forall ls x', Forall own_step ls -> wsteps pass x ls = Some x' ->
  length ls <= bound /\ (at_rest pass x' -> ~ forgotten x' -> all_done x').
Proof. exact rest_lemma. Qed.
Print Assumptions C158_rest_partial.
(** C158. Nobody is forgotten when nothing comes between the test of that thread and its sleep. *)
Theorem C158_tight_partial : forall pass n x, wtight pass n x -> at_rest pass x -> all_done x.
Proof. exact tight_rest_lemma. Qed.
Print Assumptions C158_tight_partial.

Ltac resting := let l := fresh in let H := fresh in intros l H; destruct l as [k c| |m| | | |b|t c|t ok|t]; try contradiction H; clear H; try (destruct m; reflexivity);
  try reflexivity; try (destruct t as [|[|t]]; [reflexivity|reflexivity|]; cbn; destruct t; reflexivity).

(** the file changes: fifteen steps later the threads rest, and the callback has been called *)
Example C158_nonvacuous : exists x x', wtight yes 2 x /\ wreachable yes calm 2 x /\ at_rest yes x' /\ Forall own_step ([Read 1; Watch; Watch; Watch] ++ repeat Caller 11) /\
  wsteps yes x ([Read 1; Watch; Watch; Watch] ++ repeat Caller 11) = Some x' /\ ~ forgotten x' /\ last_set (history x') = true /\ last_failed (history x') = false /\ calls (history x') = [the_file].
Proof.
  destruct (wsteps yes (winit 2) (a_set ++ both_wait ++ [Change Modified the_file])) as [x|] eqn:E; [|vm_compute in E; discriminate E].
  assert (R : wreachable yes calm 2 x) by (eapply run_reachable; [|exact E]; all_allowed).
  assert (T : wtight yes 2 x) by (eapply tight_steps with (ls := a_set ++ both_wait ++ [Change Modified the_file]); [constructor|all_allowed|rewrite <- E; vm_compute; reflexivity]).
  destruct (wsteps yes x ([Read 1; Watch; Watch; Watch] ++ repeat Caller 11)) as [x'|] eqn:E'; [|vm_compute in E; injection E as <-; vm_compute in E'; discriminate E'].
  exists x, x'. split; [exact T|]. split; [exact R|]. clear T R. vm_compute in E. injection E as <-. vm_compute in E'. injection E' as <-.
  split; [resting|]. split; [cbn [repeat app]; all_allowed|]. split; [reflexivity|]. split; [intros [_ K]; discriminate K|]. repeat split; reflexivity.
Qed.

(** C158. Refuted: the notification of the destructor comes between the test of the other thread and its sleep: nobody can go on and unset_callback has not returned. *)
Theorem C158_lost_refuted : exists x, wreachable yes calm 2 x /\ at_rest yes x /\ ~ all_done x.
Proof.
  destruct (wsteps yes (winit 2) (a_set ++ repeat Caller 4 ++ start_unset ++ [Watch; Run 1; Caller])) as [x|] eqn:E; [|vm_compute in E; discriminate E].
  assert (R : wreachable yes calm 2 x) by (eapply run_reachable; [|exact E]; all_allowed). exists x. split; [exact R|]. clear R. vm_compute in E. injection E as <-.
  split; [resting|]. intros [C _]. discriminate (C 1 UJoinD eq_refl).
Qed.
Print Assumptions C158_lost_refuted.
(** C158. Refuted: after the removal of the watched directory nobody can go on and unset_callback has not returned. *)
Theorem C158_removed_refuted : exists x, wreachable yes quiet 2 x /\ at_rest yes x /\ ~ forgotten x /\ ~ all_done x.
Proof.
  destruct (wsteps yes (winit 2) (a_set ++ both_wait ++ [Gone; Read 1; Watch; Watch; Watch] ++ start_unset ++ repeat Caller 5)) as [x|] eqn:E; [|vm_compute in E; discriminate E].
  assert (R : wreachable yes quiet 2 x) by (eapply run_reachable; [|exact E]; all_allowed). exists x. split; [exact R|]. clear R. vm_compute in E. injection E as <-.
  split; [resting|]. split; [intros [_ K]; discriminate K|]. intros [C _]. discriminate (C 1 UJoinW eq_refl).
Qed.
Print Assumptions C158_removed_refuted.
