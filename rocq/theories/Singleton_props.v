(** C50: singletons. *)
From Verif Require Import Singleton_model Singleton_spec Singleton_proofs.

(** a class whose constructor fails for the argument 0, and two threads that initialise it *)
Definition not_zero (a : option nat) : bool := match a with Some 0 => false | _ => true end.
Definition race : list (slabel nat) :=
  [SCall 0 (Initialize 0); SRun 0; SCall 1 (Initialize 7); SRun 0; SRun 0; SRun 0; SRun 0; SRun 1; SCall 0 (Initialize 8); SRun 1; SRun 1; SRun 1; SRun 0;
   SRun 0; SRun 1; SRun 0; SRun 0; SCall 0 (Get true); SRun 0; SRun 0; SRun 0; SRun 0; SCall 1 (Get false); SRun 1; SRun 1; SRun 1; SRun 1].

(** every interleaving of calls is as if they were made one at a time *)
Theorem C50_linear : forall A constructible n ls s, ssteps A constructible (sinit A n) ls = Some s ->
  linearizable (single_spec A constructible) None (sevents s).
Proof. exact single_linear_lemma. Qed.
Print Assumptions C50_linear.

Example C50_linear_nonvacuous : exists s, ssteps nat not_zero (sinit nat 2) race = Some s /\
  filter (fun e => match e with LRet _ _ _ => true | _ => false end) (sevents s) =
  [LRet 1 (Get false) (RInstance (Some {| address := 0; made_with := Some 7 |})); LRet 0 (Get true) (RInstance (Some {| address := 0; made_with := Some 7 |}));
   LRet 0 (Initialize 8) (RBool false); LRet 1 (Initialize 7) (RBool true); LRet 0 (Initialize 0) RThrown].
Proof. eexists. split; [vm_compute; reflexivity|]. reflexivity. Qed.

(** all calls obtain the same instance, made with the arguments of the initialisation that succeeded *)
Theorem C50_one_instance : forall A constructible n ls s, ssteps A constructible (sinit A n) ls = Some s ->
  (forall i j, obtained i (sevents s) -> obtained j (sevents s) -> i = j) /\
  (forall i a t, obtained i (sevents s) -> initialized_by a t (sevents s) -> made_with i = Some a) /\
  (forall a b t u, initialized_by a t (sevents s) -> initialized_by b u (sevents s) -> a = b).
Proof. exact one_instance_lemma. Qed.
Print Assumptions C50_one_instance.

Example C50_one_instance_nonvacuous : exists s, ssteps nat not_zero (sinit nat 2) race = Some s /\
  obtained {| address := 0; made_with := Some 7 |} (sevents s) /\ initialized_by 7 1 (sevents s).
Proof. eexists. split; [vm_compute; reflexivity|]. split; [exists 0, (Get true); cbn; tauto|unfold initialized_by; cbn; tauto]. Qed.

(** at most one initialisation succeeds *)
Theorem C50_one_success : forall A constructible n ls s, ssteps A constructible (sinit A n) ls = Some s -> successes (sevents s) <= 1.
Proof. exact single_success_lemma. Qed.
Print Assumptions C50_one_success.

Example C50_one_success_nonvacuous : exists s, ssteps nat not_zero (sinit nat 2) race = Some s /\ successes (sevents s) = 1.
Proof. eexists. split; [vm_compute; reflexivity|]. reflexivity. Qed.

(** as long as a call is in progress some thread can go on *)
Theorem C50_progress : forall A constructible n ls s, ssteps A constructible (sinit A n) ls = Some s -> terminated s = false ->
  forall t p, nth_error (spcs s) t = Some p -> p <> SIdle -> exists u s', sstep A constructible s (SRun u) = Some s'.
Proof. exact single_progress_lemma. Qed.
Print Assumptions C50_progress.

Example C50_progress_nonvacuous : exists s, ssteps nat not_zero (sinit nat 2) [SCall 0 (Initialize 7); SRun 0; SCall 1 (Get true)] = Some s /\
  terminated s = false /\ sstep nat not_zero s (SRun 1) = None /\ sstep nat not_zero s (SRun 0) <> None.
Proof. eexists. split; [vm_compute; reflexivity|]. split; [reflexivity|]. split; [reflexivity|discriminate]. Qed.

(** the singleton that is not safe: a second initialisation replaces the instance and destroys
    the one that [get_instance] had returned *)
Theorem C50_unsafe_refuted : exists x i, init_get x = Some i /\ init_alive x i /\
  init_get (init_initialize x) <> Some i /\ ~ init_alive (init_initialize x) i.
Proof. exact init_refute. Qed.
Print Assumptions C50_unsafe_refuted.
