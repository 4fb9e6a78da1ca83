(** Properties of file watcher event handlers. *)
From Verif Require Import Watcher_model Watcher_spec Watcher_proofs.

Definition yes (n : str) : bool := true.
Definition the_file : str := s "file".
(** thread 0 sets a callback *)
Definition a_set : list wlabel := [Call 0 SetCallback; Run 0; Run 0; Start 0 true; Run 0].
Definition a_failed_set : list wlabel := [Call 0 SetCallback; Run 0; Run 0; Start 0 false; Run 0].
(** the threads of the watcher wait; the file is modified and the callback called *)
Definition both_wait : list wlabel := Watch :: repeat Caller 5.
Definition a_change : list wlabel := [Change Modified the_file; Read 1; Watch; Watch].
Definition until_call : list wlabel := repeat Caller 4.
(** thread 1 unsets it, until it waits for the watching thread *)
Definition start_unset : list wlabel := Call 1 UnsetCallback :: repeat (Run 1) 5.

Lemma run_reachable pass allowed n ls x : Forall allowed ls -> wsteps pass (winit n) ls = Some x -> wreachable pass allowed n x.
Proof. intros F E. exact (reach_steps _ _ _ _ _ (wr_init _ _ _) F _ E). Qed.
Ltac all_allowed := repeat (apply Forall_cons; [exact I|]); apply Forall_nil.

(** ** C57: once set, watched, or the failure was reported *)
Theorem C57_watched_partial : forall pass n x, wreachable pass quiet n x -> (forall t p, nth_error (clients x) t = Some p -> p = CIdle) ->
  last_set (history x) = true -> last_failed (history x) = false -> watched x.
Proof. exact watched_lemma. Qed.
Print Assumptions C57_watched_partial.

(** the constructor of the watcher throws; set_callback returns normally, and until unset_callback is called the file is not watched,
    however often set_callback is called again *)
Theorem C57_failure_refuted : exists x, wreachable yes quiet 1 x /\ history x = [VSet 0; VFailed; VSetting 0] /\ clients x = [CIdle] /\
  forall ls x', (forall t, ~ In (Call t UnsetCallback) ls) -> wsteps yes x ls = Some x' -> ~ watched x'.
Proof.
  destruct (wsteps yes (winit 1) a_failed_set) as [x|] eqn:E; [|vm_compute in E; discriminate E].
  assert (wreachable yes quiet 1 x) as R by (eapply run_reachable; [|exact E]; all_allowed).
  exists x. split; [exact R|]. vm_compute in E. injection E as <-. split; [reflexivity|]. split; [reflexivity|].
  intros ls x' N E (W & _). assert (unwatched x') as ((U & _) & _); [|contradiction].
  eapply unwatched_stays; [|exact N|exact E]. unfold unwatched, nothing. cbn. repeat split; auto. intros [|t] p H; [injection H as <-; reflexivity|destruct t; discriminate H].
Qed.
Print Assumptions C57_failure_refuted.

Example C57_nonvacuous : exists x, wreachable yes quiet 1 x /\ clients x = [CIdle] /\ last_set (history x) = true /\ last_failed (history x) = false.
Proof.
  destruct (wsteps yes (winit 1) a_set) as [x|] eqn:E; [|vm_compute in E; discriminate E].
  assert (wreachable yes quiet 1 x) as R by (eapply run_reachable; [|exact E]; all_allowed).
  exists x. split; [exact R|]. vm_compute in E. injection E as <-. auto.
Qed.

(** ** C77: the callback is called only while set *)
Theorem C77_only_set : forall pass allowed n x e older, wreachable pass allowed n x -> moment x e older -> a_call e -> last_set older = true.
Proof. exact only_set_lemma. Qed.
Print Assumptions C77_only_set.

Theorem C77_unset : forall pass allowed n x, wreachable pass allowed n x -> last_set (history x) = false -> ~ running x /\ watching x = WNone /\ calling x = DNone.
Proof. exact unset_lemma. Qed.
Print Assumptions C77_unset.

Example C77_nonvacuous : exists x, wreachable yes quiet 2 x /\
  history x = [VUnset 1; VReturned; VCalled the_file; VReported the_file; VSet 0; VCreated; VSetting 0].
Proof.
  destruct (wsteps yes (winit 2) (a_set ++ both_wait ++ a_change ++ until_call ++ [Caller; Caller] ++ start_unset ++ [Watch; Caller; Run 1; Run 1; Run 1; Run 1])) as [x|] eqn:E; [|vm_compute in E; discriminate E].
  assert (wreachable yes quiet 2 x) as R by (eapply run_reachable; [|exact E]; all_allowed).
  exists x. split; [exact R|]. vm_compute in E. injection E as <-. reflexivity.
Qed.

(** ** C78: one call for each reported modification, in order *)
Theorem C78_in_order : forall pass allowed n x, wreachable pass allowed n x -> exists l, reports (history x) = calls (history x) ++ l.
Proof. exact prefix_lemma. Qed.
Print Assumptions C78_in_order.

Theorem C78_delivered_partial : forall pass n x, wreachable pass quiet n x -> (forall t p, nth_error (clients x) t = Some p -> p = CIdle) ->
  last_set (history x) = true -> last_failed (history x) = false ->
  exists bound, forall ls x', Forall own_step ls -> wsteps pass x ls = Some x' ->
    List.length ls <= bound /\ ((forall l, own_step l -> wstep pass x' l = None) -> calls (history x') = reports (history x)).
Proof. exact delivers_lemma. Qed.
Print Assumptions C78_delivered_partial.

(** two modifications, delivered by steps of the watcher alone *)
Example C78_nonvacuous : exists x ls x', wreachable yes quiet 1 x /\ clients x = [CIdle] /\ reports (history x) = [the_file; s "b"] /\ calls (history x) = [] /\
  Forall own_step ls /\ wsteps yes x ls = Some x' /\ calls (history x') = [the_file; s "b"] /\ wstep yes x' Watch = None /\ wstep yes x' Caller = None.
Proof.
  destruct (wsteps yes (winit 1) (a_set ++ both_wait ++ [Change Modified the_file; Change Added the_file; Change Modified (s "b")])) as [x|] eqn:E; [|vm_compute in E; discriminate E].
  assert (wreachable yes quiet 1 x) as R by (eapply run_reachable; [|exact E]; all_allowed).
  pose (ls := [Read 2; Watch; Watch; Watch; Read 1; Watch; Watch; Watch] ++ repeat Caller 14).
  destruct (wsteps yes x ls) as [x'|] eqn:E'; [|vm_compute in E; injection E as <-; vm_compute in E'; discriminate E'].
  exists x, ls, x'. split; [exact R|]. vm_compute in E. injection E as <-. split; [reflexivity|]. split; [reflexivity|]. split; [reflexivity|].
  split; [all_allowed|]. split; [exact E'|]. vm_compute in E'. injection E' as <-. repeat split; reflexivity.
Qed.

(** ** C79: set_callback and unset_callback return *)
Theorem C79_progress_partial : forall pass n x t p, wreachable pass quiet n x -> nth_error (clients x) t = Some p -> inside p ->
  (exists l x', own_step l /\ wstep pass x l = Some x') \/ deaf x \/ forgotten x.
Proof. exact progress_lemma. Qed.
Print Assumptions C79_progress_partial.

Theorem C79_deaf_partial : forall pass n x, wreachable pass calm n x -> ~ deaf x.
Proof. exact not_deaf. Qed.
Print Assumptions C79_deaf_partial.

(** Partial: when nothing comes between the test of the other thread and its sleep, a thread inside a function, or one that it waits for, can always continue. *)
Theorem C79_awake_partial : forall pass n x t p, wtight pass n x -> nth_error (clients x) t = Some p -> inside p -> exists l x', own_step l /\ wstep pass x l = Some x'.
Proof. exact tight_lemma. Qed.
Print Assumptions C79_awake_partial.

(** the notification of the destructor comes between the test of the other thread and its wait *)
Theorem C79_lost_notification_refuted : exists x, wreachable yes calm 2 x /\ nth_error (clients x) 1 = Some UJoinD /\ stuck yes x.
Proof.
  destruct (wsteps yes (winit 2) (a_set ++ repeat Caller 4 ++ start_unset ++ [Watch; Run 1; Caller])) as [x|] eqn:E; [|vm_compute in E; discriminate E].
  assert (wreachable yes calm 2 x) as R by (eapply run_reachable; [|exact E]; all_allowed).
  exists x. split; [exact R|]. assert (forgotten x /\ nth_error (clients x) 1 = Some UJoinD) as [F C] by (vm_compute in E; injection E as <-; repeat split; reflexivity).
  split; [exact C|]. exact (forgotten_stuck _ _ _ _ _ R F C).
Qed.
Print Assumptions C79_lost_notification_refuted.

(** the watched directory was removed before *)
Theorem C79_directory_removed_refuted : exists x, wreachable yes quiet 2 x /\ nth_error (clients x) 1 = Some UJoinW /\ stuck yes x.
Proof.
  destruct (wsteps yes (winit 2) (a_set ++ both_wait ++ [Gone; Read 1; Watch; Watch; Watch] ++ start_unset)) as [x|] eqn:E; [|vm_compute in E; discriminate E].
  assert (wreachable yes quiet 2 x) as R by (eapply run_reachable; [|exact E]; all_allowed).
  exists x. split; [exact R|]. assert (deaf x /\ nth_error (clients x) 1 = Some UJoinW) as [F C] by (vm_compute in E; injection E as <-; repeat split; reflexivity).
  split; [exact C|]. exact (deaf_stuck _ _ _ _ _ R F C).
Qed.
Print Assumptions C79_directory_removed_refuted.

Example C79_nonvacuous : exists x, wreachable yes calm 2 x /\ nth_error (clients x) 1 = Some UJoinW.
Proof.
  destruct (wsteps yes (winit 2) (a_set ++ both_wait ++ start_unset)) as [x|] eqn:E; [|vm_compute in E; discriminate E].
  assert (wreachable yes calm 2 x) as R by (eapply run_reachable; [|exact E]; all_allowed).
  exists x. split; [exact R|]. vm_compute in E. injection E as <-. reflexivity.
Qed.

Lemma tight_steps pass n ls : forall x, wtight pass n x -> Forall calm ls -> forall x', (fix go x ls := match ls with [] => Some x | l :: ls' => match calling x, l with DBlock, Caller => match wstep pass x l with Some y => go y ls' | None => None end | DBlock, _ => None | _, _ => match wstep pass x l with Some y => go y ls' | None => None end end end) x ls = Some x' -> wtight pass n x'.
Proof.
  induction ls as [|l ls IH]; intros x T F x' E; [injection E as <-; exact T|]. inversion F as [|? ? F1 F2]; subst.
  assert (exists y, wstep pass x l = Some y /\ (calling x = DBlock -> l = Caller)) as (y & E1 & B).
  { destruct (wstep pass x l) as [y|] eqn:E1; [|exfalso; destruct (calling x); try discriminate E; destruct l; discriminate E].
    exists y. split; [reflexivity|]. intro C. rewrite C in E. destruct l; try discriminate E. reflexivity. }
  apply (IH y); [econstructor; eassumption|exact F2|]. rewrite E1 in E. destruct (calling x); try exact E. destruct l; try discriminate E; exact E.
Qed.
(** the other thread sleeps while unset_callback waits for the watching thread *)
Example C79_awake_partial_nonvacuous : exists x, wtight yes 2 x /\ nth_error (clients x) 1 = Some UNotify /\ calling x = DSleep.
Proof.
  eexists. split; [eapply tight_steps with (ls := a_set ++ both_wait ++ [Call 1 UnsetCallback; Run 1; Run 1; Run 1; Run 1]); [constructor|all_allowed|vm_compute; reflexivity]|]. split; reflexivity.
Qed.

(** ** C80: the callback may use its own handler *)
Theorem C80_unset_refuted : exists x, wreachable yes anything 1 x /\ hd_error (history x) = Some VTerminate.
Proof.
  destruct (wsteps yes (winit 1) (a_set ++ both_wait ++ a_change ++ until_call ++ [Nested false; Caller; Watch; Caller])) as [x|] eqn:E; [|vm_compute in E; discriminate E].
  assert (wreachable yes anything 1 x) as R by (eapply run_reachable; [|exact E]; all_allowed).
  exists x. split; [exact R|]. vm_compute in E. injection E as <-. reflexivity.
Qed.
Print Assumptions C80_unset_refuted.

Theorem C80_set_refuted : forall c, c = SetCallback \/ c = UnsetCallback -> exists x, wreachable yes no_unset 2 x /\ In (VCalled the_file) (history x) /\ blocked_forever yes x 1.
Proof.
  intros c Hc.
  destruct (wsteps yes (winit 2) (a_set ++ both_wait ++ a_change ++ until_call ++ [Call 1 c; Run 1; Nested true])) as [x|] eqn:E; [|destruct Hc as [-> | ->]; vm_compute in E; discriminate E].
  assert (wreachable yes no_unset 2 x) as R by (eapply run_reachable; [|exact E]; all_allowed).
  exists x. split; [exact R|].
  assert (calling x = DNest true [] /\ (nth_error (clients x) 1 = Some SSet \/ nth_error (clients x) 1 = Some UClear) /\ In (VCalled the_file) (history x)) as (T & C & H)
    by (destruct Hc as [-> | ->]; vm_compute in E; injection E as <-; repeat split; auto; left; reflexivity).
  split; [exact H|]. exact (crossed_forever _ _ _ _ _ _ _ R T C).
Qed.
Print Assumptions C80_set_refuted.

Theorem C80_no_terminate_partial : forall pass n x, wreachable pass quiet n x -> ~ In VTerminate (history x).
Proof. exact no_terminate. Qed.
Print Assumptions C80_no_terminate_partial.

(** ** C81: only the file that was asked for *)
Theorem C81_single_file : forall init stat add path t k, get_directory init stat add path = (Some t, k) -> stat path = Some true ->
  filename t = snd (split_path path) /\ (In slash path -> directory t ++ filename t = path) /\ (~ In slash path -> directory t = s "./" /\ filename t = path) /\
  add (directory t) = true /\ ~ In slash (filename t) /\
  forall name, ~ In slash name -> (pass_filter t name = true <-> name = filename t).
Proof. exact single_lemma. Qed.
Print Assumptions C81_single_file.

Theorem C81_folder_partial : forall init stat add path t k, get_directory init stat add path = (Some t, k) -> stat path = Some false ->
  directory t = path /\ forall name, pass_filter t name = true <-> (~ In (ascii_of_nat 10) name /\ ~ In (ascii_of_nat 13) name).
Proof. exact folder_lemma. Qed.
Print Assumptions C81_folder_partial.

(** a file of a watched folder whose name contains a line feed is never reported *)
Theorem C81_folder_refuted : exists t name, get_directory true (fun _ => Some false) (fun _ => true) (s "/tmp/d") = (Some t, 1) /\ name <> [] /\ ~ In slash name /\ pass_filter t name = false.
Proof.
  eexists. exists (s "a" ++ [ascii_of_nat 10]). split; [vm_compute; reflexivity|]. split; [discriminate|]. split; [|reflexivity].
  intros [H|[H|[]]]; vm_compute in H; discriminate H.
Qed.
Print Assumptions C81_folder_refuted.

Example C81_nonvacuous : exists t, get_directory true (fun _ => Some true) (fun _ => true) (s "/tmp/config.yaml") = (Some t, 1) /\ directory t = s "/tmp/" /\ filename t = s "config.yaml" /\
  pass_filter t (s "config.yaml") = true /\ pass_filter t (s "config.yaml.swp") = false.
Proof. eexists. split; [vm_compute; reflexivity|]. repeat split; reflexivity. Qed.

(** ** C82: a failed attempt leaves nothing open *)
Theorem C82_failed_refuted : exists stat add path, get_directory true stat add path = (None, 1).
Proof. exists (fun _ => None), (fun _ => true), the_file. reflexivity. Qed.
Print Assumptions C82_failed_refuted.

(** every failed attempt after inotify_init leaves one descriptor open *)
Theorem C82_leak : forall stat add path k, get_directory true stat add path = (None, k) -> k = 1.
Proof. unfold get_directory. intros stat add path k E. destruct (stat path); [destruct (add _); [discriminate E|]|]; injection E as <-; reflexivity. Qed.
Print Assumptions C82_leak.
