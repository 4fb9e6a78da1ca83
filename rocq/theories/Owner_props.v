(** C41, C42, C43: owners, lessees and guards. *)
From Coq Require Import List Arith Lia Bool.
From Verif Require Import Threads Owner_model Owner_spec Owner_proofs.
Import ListNotations.

(** C41: a guard that says it has data has data that is not destroyed *)
Theorem C41_guard : forall allowed n s, mreachable allowed n s -> forall c, guarded s c -> present (cells s c) = true -> destroyed (cells s c) = 0.
Proof. exact guard_safe_lemma. Qed.
Print Assumptions C41_guard.

(** C41: data is destroyed only when nobody has a guard on it *)
Theorem C41_destroy : forall allowed n s, mreachable allowed n s -> forall l s' c, mstep s l = Some s' -> c < made s ->
  destroyed (cells s' c) <> destroyed (cells s c) -> ~ guarded s c.
Proof. exact destroy_step_lemma. Qed.
Print Assumptions C41_destroy.

(** two threads, a guard, and an owner that wants to reset and waits for the guard *)
Definition guard_run : list mlabel := [NewOwner; CallReset 0 0 (Renew false); Lease 0; CallLock 1 0 WithException; MRun 1; MRun 1; CallReset 0 0 Stop].
Example C41_guard_nonvacuous : exists s, mreachable anything 2 s /\ nth_error (guards s) 0 = Some (Some 0) /\ present (cells s 0) = true /\
  nth_error (mpcs s) 0 = Some (MReset 0 0 Stop) /\ mstep s (MRun 0) = None.
Proof.
  destruct (msteps (minit 2) guard_run) as [s|] eqn:E; [|vm_compute in E; discriminate]. exists s. split; [eapply steps_reach; [constructor|exact E]|].
  vm_compute in E. injection E as <-. repeat split; reflexivity.
Qed.
Example C41_destroy_nonvacuous : exists s s', mreachable anything 2 s /\ mstep s (MRun 0) = Some s' /\ 0 < made s /\ destroyed (cells s 0) = 0 /\ destroyed (cells s' 0) = 1.
Proof.
  destruct (msteps (minit 2) (guard_run ++ [DropGuard 0; MRun 0])) as [s|] eqn:E; [|vm_compute in E; discriminate]. exists s.
  assert (R : mreachable anything 2 s) by (eapply steps_reach; [constructor|exact E]). vm_compute in E. injection E as <-.
  eexists. split; [exact R|]. split; [cbn; reflexivity|]. repeat split; auto.
Qed.

(** C41: data is destroyed at most once, and exactly once when no owner has it any more *)
Theorem C41_once : forall allowed n s, mreachable allowed n s -> forall c, c < made s ->
  destroyed (cells s c) <= 1 /\ (~ has_owner s c -> destroyed (cells s c) = 1 /\ present (cells s c) = false).
Proof. exact once_lemma. Qed.
Print Assumptions C41_once.

Definition reset_run : list mlabel := guard_run ++ [DropGuard 0; MRun 0; MRun 0; MRun 0; MRun 0].
Example C41_once_nonvacuous : exists s, mreachable anything 2 s /\ made s = 1 /\ ~ has_owner s 0 /\ nth_error (lessees s) 0 = Some (Some 0).
Proof.
  destruct (msteps (minit 2) reset_run) as [s|] eqn:E; [|vm_compute in E; discriminate]. exists s. split; [eapply steps_reach; [constructor|exact E]|].
  vm_compute in E. injection E as <-. repeat split; try reflexivity. intros [o O]. destruct o as [|[]]; discriminate.
Qed.

(** C41: once no owner has the data (after reset, move-assignment or destruction), whatever happens
    next nobody obtains it through its lessees: lock_with_exception and -> give nothing, and guards
    given by lock say that they have none *)
Theorem C41_gone : forall allowed n s, mreachable allowed n s -> forall c, c < made s -> ~ has_owner s c -> forall ls s', msteps s ls = Some s' ->
  (exists new, mevents s' = new ++ mevents s /\ forall t, ~ In (EGuard t c) new /\ ~ In (EArrow t c) new) /\
  present (cells s' c) = false /\ (forall g, nth_error (guards s') g = Some (Some c) -> mstep s' (UseGuard g) = None).
Proof. exact gone_lemma. Qed.
Print Assumptions C41_gone.

(** a lessee that was given before, tried after the reset in the three ways *)
Example C41_gone_nonvacuous : exists s s', mreachable anything 2 s /\ made s = 1 /\ ~ has_owner s 0 /\
  msteps s [CallLock 1 0 Plain; MRun 1; CallLock 1 0 WithException; MRun 1; MRun 1; CallLock 1 0 Arrow; MRun 1; MRun 1] = Some s' /\
  nth_error (guards s') 1 = Some (Some 0) /\ mevents s' = [EThrown 1 0; EThrown 1 0] ++ mevents s.
Proof.
  destruct (msteps (minit 2) reset_run) as [s|] eqn:E; [|vm_compute in E; discriminate]. exists s.
  assert (R : mreachable anything 2 s) by (eapply steps_reach; [constructor|exact E]). vm_compute in E. injection E as <-.
  eexists. split; [exact R|]. split; [reflexivity|]. split; [intros [o O]; destruct o as [|[]]; discriminate|]. split; [vm_compute; reflexivity|]. split; reflexivity.
Qed.

(** C41: as long as -> and * of lessees are not used, nothing destroyed is ever used, and no mutex is
    misused *)
Theorem C41_no_misuse_partial : forall n s, mreachable no_arrow n s -> misused s = false.
Proof. exact no_misuse_lemma. Qed.
Print Assumptions C41_no_misuse_partial.

(** C41: as long as operator bool of lessees is not used, there is no data race on the pointer *)
Theorem C41_no_race_partial : forall n s, mreachable no_ask n s -> raced s = false.
Proof. exact no_race_lemma. Qed.
Print Assumptions C41_no_race_partial.

(** with uses of a guard, also while the owner waits *)
Definition use_run : list mlabel := guard_run ++ [UseGuard 0; MoveGuard 0; UseGuard 1; DropGuard 1; MRun 0; MRun 0].
Example C41_no_misuse_nonvacuous : exists s, mreachable no_arrow 2 s /\ destroyed (cells s 0) = 1.
Proof.
  destruct (msteps (minit 2) use_run) as [s|] eqn:E; [|vm_compute in E; discriminate]. exists s. split.
  - eapply allowed_steps; [|constructor|exact E]. intros x l H. cbn in H. repeat (destruct H as [<-|H]; [exact I|]). destruct H.
  - vm_compute in E. injection E as <-. reflexivity.
Qed.
Example C41_no_race_nonvacuous : exists s, mreachable no_ask 2 s /\ destroyed (cells s 0) = 1.
Proof.
  destruct (msteps (minit 2) use_run) as [s|] eqn:E; [|vm_compute in E; discriminate]. exists s. split.
  - eapply allowed_steps; [|constructor|exact E]. intros x l H. cbn in H. repeat (destruct H as [<-|H]; [exact I|]). destruct H.
  - vm_compute in E. injection E as <-. reflexivity.
Qed.

(** C41: operator bool of a lessee reads the pointer without the mutex: it races with the owner's
    reset, and may say that there is data when it is already destroyed *)
Theorem C41_race_refuted : exists s, mreachable no_arrow 1 s /\ raced s = true /\ destroyed (cells s 0) = 1 /\
  nth_error (lessees s) 0 = Some (Some 0) /\ nth_error (mevents s) 0 = Some (ELesseeBool 0 true).
Proof. exact ask_lemma. Qed.
Print Assumptions C41_race_refuted.

(** C41: a thread that waits for a guard never waits for another guard: it can go on, or the owner
    that is inside reset can *)
Theorem C41_lock_progress : forall allowed n s, mreachable allowed n s -> forall t c,
  (nth_error (mpcs s) t = Some (MShare c) \/ nth_error (mpcs s) t = Some (MShareX c) \/ nth_error (mpcs s) t = Some (MShareA c)) ->
  (exists s', mstep s (MRun t) = Some s') \/
  (exists u o k s', (nth_error (mpcs s) u = Some (MIn o c k) \/ nth_error (mpcs s) u = Some (MHalf o c k) \/ nth_error (mpcs s) u = Some (MOut o c k)) /\
    mstep s (MRun u) = Some s').
Proof. exact lock_progress_lemma. Qed.
Print Assumptions C41_lock_progress.

Example C41_lock_progress_nonvacuous : exists s, mreachable anything 2 s /\ nth_error (mpcs s) 1 = Some (MShare 0) /\ mstep s (MRun 1) = None /\ nth_error (mpcs s) 0 = Some (MHalf 0 0 Stop).
Proof.
  destruct (msteps (minit 2) (guard_run ++ [DropGuard 0; CallLock 1 0 Plain; MRun 0; MRun 0])) as [s|] eqn:E; [|vm_compute in E; discriminate]. exists s.
  split; [eapply steps_reach; [constructor|exact E]|]. vm_compute in E. injection E as <-. repeat split; reflexivity.
Qed.

(** C42: the data may be destroyed while a method called through a lessee with -> runs: the guard is
    gone before the method begins *)
Theorem C42_arrow_refuted : exists s, mreachable anything 2 s /\ misused s = true.
Proof. exact arrow_lemma. Qed.
Print Assumptions C42_arrow_refuted.

(** C42, the part that holds: the pointer that -> returns is to data that is not destroyed when it is
    read.  Missing: it stays so while the method runs. *)
Theorem C42_pointer_partial : forall allowed n s, mreachable allowed n s -> forall t c, nth_error (mpcs s) t = Some (MRaw c) ->
  present (cells s c) = true /\ destroyed (cells s c) = 0.
Proof. exact pointer_lemma. Qed.
Print Assumptions C42_pointer_partial.

Example C42_pointer_nonvacuous : exists s, mreachable anything 2 s /\ nth_error (mpcs s) 1 = Some (MRaw 0) /\ nth_error (mpcs s) 0 = Some (MReset 0 0 Stop).
Proof.
  destruct (msteps (minit 2) [NewOwner; CallReset 0 0 (Renew false); Lease 0; CallReset 0 0 Stop; CallLock 1 0 Arrow; MRun 1; MRun 1]) as [s|] eqn:E; [|vm_compute in E; discriminate].
  exists s. split; [eapply steps_reach; [constructor|exact E]|]. vm_compute in E. injection E as <-. repeat split; reflexivity.
Qed.

(** C43: if no guard was assigned over while it had data, the owner can release the data as soon as
    nobody has a guard.  Missing: guards that are assigned over. *)
Theorem C43_release_partial : forall n s, mreachable no_overwrite n s -> forall t o c k, nth_error (mpcs s) t = Some (MReset o c k) -> ~ guarded s c ->
  exists s', mstep s (MRun t) = Some s'.
Proof. exact reset_lemma. Qed.
Print Assumptions C43_release_partial.

Example C43_release_nonvacuous : exists s, mreachable no_overwrite 2 s /\ nth_error (mpcs s) 0 = Some (MReset 0 0 Stop) /\ ~ guarded s 0 /\ nth_error (guards s) 1 = Some None.
Proof.
  destruct (msteps (minit 2) (guard_run ++ [MoveGuard 0; DropGuard 0; DropGuard 1])) as [s|] eqn:E; [|vm_compute in E; discriminate]. exists s. split.
  - eapply allowed_steps; [|constructor|exact E]. intros x l H. cbn in H. repeat (destruct H as [<-|H]; [exact I|]). destruct H.
  - vm_compute in E. injection E as <-. split; [reflexivity|]. split; [|reflexivity]. intros [[g G]|(t & p & P & H)].
    + destruct g as [|[|[]]]; discriminate.
    + destruct t as [|[|[]]]; cbn in P; try discriminate; injection P as <-; destruct H as [H|[H|H]]; discriminate.
Qed.

(** C43: assigning over a guard that has data keeps its lock for ever: with no guard left, the reset
    of the owner never returns, whatever happens *)
Theorem C43_release_refuted : exists s, mreachable anything 2 s /\ nth_error (mpcs s) 0 = Some (MReset 0 0 Stop) /\ (forall c, ~ guarded s c) /\
  forall ls s', msteps s ls = Some s' -> nth_error (mpcs s') 0 = Some (MReset 0 0 Stop).
Proof. exact leak_lemma. Qed.
Print Assumptions C43_release_refuted.
