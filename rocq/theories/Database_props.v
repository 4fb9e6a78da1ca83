(** C38, C39: the database. *)
From Verif Require Import Database_model Database_spec Database_proofs.

(** C38: with the iterators that find returns, not copied: every interleaving is as if the calls
    were made one at a time on an ordinary map, and there is no data race *)
Theorem C38_linear : forall priority n s, dreachable priority find_only n s ->
  linearizable db_spec empty (devents s) /\ raced s = false /\ misused s = false.
Proof. exact db_linear_lemma. Qed.
Print Assumptions C38_linear.

Definition busy : list dlabel :=
  [DCall 0 (Add 1 10); DCall 1 (AddOrModify 1 11); DRun 0; DRun 0; DRun 0; DRun 0; DRun 1; DRun 0; DRun 1; DRun 1; DRun 1; DRun 1] ++
  [DCall 0 (At 1); DCall 1 Size; DRun 0; DRun 1; DRun 0; DRun 1; DRun 0; DRun 1; DRun 1; DRun 0; DRun 0; DRun 1] ++
  [DCall 0 (Find 1); DCall 1 (Erase 2)] ++ druns 0 6.

Example C38_linear_nonvacuous : exists s, dreachable false find_only 2 s /\
  filter (fun e => match e with LRet _ _ _ => true | _ => false end) (devents s) =
  [LRet 0 (Find 1) (RIterator (Some 1)); LRet 1 Size (RSize 1); LRet 0 (At 1) (RValue 11); LRet 1 (AddOrModify 1 11) (RBool false); LRet 0 (Add 1 10) (RBool true)].
Proof.
  destruct (dsteps false (dinit 2) busy) as [s|] eqn:E; [|vm_compute in E; discriminate]. exists s. split; [exact (find_ok _ _ _ E eq_refl)|].
  vm_compute in E. injection E as <-. reflexivity.
Qed.

(** C38: no deadlock, if readers need not wait for waiting writers: as long as a call is in progress
    some thread can go on, but for writers when somebody keeps an iterator *)
Theorem C38_progress : forall n s, dreachable false no_copy n s -> forall t p, nth_error (dpcs s) t = Some p -> p <> DIdle ->
  (~ alive s \/ wants_excl p = 0) -> exists u s', dstep false s (DRun u) = Some s'.
Proof. exact db_progress_lemma. Qed.
Print Assumptions C38_progress.

Example C38_progress_nonvacuous : exists s, dreachable false no_copy 2 s /\ nth_error (dpcs s) 1 = Some (DLock (Erase 2)) /\ ~ alive s /\
  dstep false s (DRun 1) = None /\ dstep false s (DRun 0) <> None.
Proof.
  destruct (dsteps false (dinit 2) [DCall 0 (Is 1); DRun 0; DCall 1 (Erase 2)]) as [s|] eqn:E; [|vm_compute in E; discriminate].
  exists s. split; [apply find_reach; exact (find_ok _ _ _ E eq_refl)|]. vm_compute in E. injection E as <-.
  split; [reflexivity|]. split; [|split; [reflexivity|discriminate]]. intros (i & p & H). destruct i; discriminate.
Qed.

(** C39: without copies, no step changes the map while an iterator exists *)
Theorem C39_stable : forall priority n s l s', dreachable priority no_copy n s -> no_copy l -> dstep priority s l = Some s' -> alive s -> db s' = db s.
Proof. exact stable_lemma. Qed.
Print Assumptions C39_stable.

(** C39: an iterator that find has returned stays valid.  What is missing: begin, end and copies. *)
Theorem C39_valid_partial : forall priority n s, dreachable priority find_only n s ->
  forall i k, nth_error (iters s) i = Some (Some (Some k)) -> key_of s k.
Proof. exact valid_lemma. Qed.
Print Assumptions C39_valid_partial.

Example C39_nonvacuous : exists s s', dreachable false find_only 2 s /\ alive s /\ nth_error (iters s) 0 = Some (Some (Some 1)) /\
  nth_error (dpcs s) 1 = Some (DLock (Erase 2)) /\ dstep false s (INext 0) = Some s' /\ nth_error (iters s') 0 = Some (Some None).
Proof.
  destruct (dsteps false (dinit 2) busy) as [s|] eqn:E; [|vm_compute in E; discriminate]. exists s.
  destruct (dstep false s (INext 0)) as [s'|] eqn:E'; [|vm_compute in E; injection E as <-; discriminate]. exists s'. split; [exact (find_ok _ _ _ E eq_refl)|].
  vm_compute in E. injection E as <-. vm_compute in E'. injection E' as <-. split; [exists 0, (Some 1); reflexivity|]. repeat split.
Qed.

(** C39: begin and end look at the map before they lock: a data race, and an iterator to an element
    that has been erased *)
Theorem C39_begin_refuted :
  (exists s, dreachable false no_copy 2 s /\ raced s = true) /\
  (exists s, dreachable false no_copy 2 s /\ raced s = false /\ nth_error (iters s) 0 = Some (Some (Some 1)) /\ ~ key_of s 1 /\
     exists s', dstep false s (IUse 0) = Some s' /\ misused s' = true).
Proof. exact begin_refute_reach. Qed.
Print Assumptions C39_begin_refuted.

(** C39: copies do not lock but unlock: a mutex unlocked too often, and a map that changes while a copy exists *)
Theorem C39_copy_refuted :
  (exists ls s, dsteps false (dinit 2) ls = Some s /\ raced s = false /\ misused s = true) /\
  (exists ls s s', dsteps false (dinit 2) ls = Some s /\ misused s = false /\ alive s /\ dstep false s (DRun 1) = Some s' /\ alive s' /\
     db s = [(1, 10); (2, 20)] /\ db s' = [(2, 20)]).
Proof. exact copy_refute. Qed.
Print Assumptions C39_copy_refuted.

(** C38: with a mutex that gives priority to writers, find deadlocks with a writer, since it locks twice *)
Theorem C38_deadlock_refuted : exists s, dreachable true find_only 2 s /\
  nth_error (dpcs s) 0 = Some (DFound (Find 1) (Some 1)) /\ nth_error (dpcs s) 1 = Some (DLock (Add 3 30)) /\ ~ alive s /\ forall l, dstep true s l = None.
Proof. exact deadlock_refute_reach. Qed.
Print Assumptions C38_deadlock_refuted.

(** C38: a thread that modifies the database while it keeps an iterator waits for itself *)
Theorem C38_own_iterator_refuted : exists s, dreachable false find_only 1 s /\ nth_error (dpcs s) 0 = Some (DLock (Erase 1)) /\ dstep false s (DRun 0) = None.
Proof. exact own_iterator_refute_reach. Qed.
Print Assumptions C38_own_iterator_refuted.
