(** Property C138. *)
From Verif Require Import DBQueue_model DBQueue_spec DBQueue_proofs.

(** Whatever threads use the queue, and however, their calls take effect one at a time, and no access is a data race. *)
Theorem C138_linear : forall n s, qreachable n s -> linearizable q_spec ([], []) (qevents s) /\ raced s = false.
Proof. exact linear_lemma. Qed.
Print Assumptions C138_linear.

(** The calls that have taken effect have left what is in the queue. *)
Theorem C138_content : forall n s, qreachable n s -> sequential q_spec ([], []) (qevents s) (to_read s, to_swap s).
Proof. exact content_lemma. Qed.
Print Assumptions C138_content.

(** No deadlock: if a call is in progress some thread can go on. *)
Theorem C138_progress : forall n s, qreachable n s -> forall t p, nth_error (qpcs s) t = Some p -> p <> QIdle -> exists u s', qstep s (QRun u) = Some s'.
Proof. exact progress_lemma. Qed.
Print Assumptions C138_progress.

(** With one reader that swaps when there is nothing to read, nothing is lost, duplicated or reordered: what has been pushed is what
    has been removed, then what can be read, then what will be read after the next swap. *)
Theorem C138_order : forall c n s, qused c n s -> pushed (qevents s) = taken (qevents s) ++ to_read s ++ to_swap s.
Proof. exact order_lemma. Qed.
Print Assumptions C138_order.

(** It never reads or removes an element that does not exist. *)
Theorem C138_defined : forall c n s, qused c n s -> forall t o, ~ In (LDo t o RUndefined) (qevents s).
Proof. exact defined_lemma. Qed.
Print Assumptions C138_defined.

(** When both_empty says so, everything that has been pushed has been removed. *)
Theorem C138_both_empty : forall c n s t evs, qused c n s -> qevents s = LDo t BothEmpty (RBool true) :: evs -> pushed evs = taken evs.
Proof. exact both_empty_lemma. Qed.
Print Assumptions C138_both_empty.

(** The reference that front has returned can be used until the reader makes its next call, although no lock is held: it refers to
    the element, and no thread is in the middle of removing elements. *)
Theorem C138_reference : forall c n s x r, qused c n s -> latest c (qevents s) = Some (LRet c Front (RFront x r)) ->
  deref s r = Some x /\ forall t o, nth_error (qpcs s) t = Some (QHalf o) -> removes o = false.
Proof. exact reference_lemma. Qed.
Print Assumptions C138_reference.

(** ** examples *)
Definition runs (t k : nat) : list qlabel := repeat (QRun t) k.
Fixpoint qused_by (c : nat) (s : qstate) (ls : list qlabel) : Prop :=
  match ls with [] => True | l :: ls => intended c s l /\ match qstep s l with Some s' => qused_by c s' ls | None => False end end.
Lemma used_steps c n ls s : qused c n s -> qused_by c s ls -> exists s', qsteps s ls = Some s' /\ qused c n s'.
Proof.
  revert s. induction ls as [|l ls IH]; cbn; intros s U H; [eauto|]. destruct H as [I H]. destruct (qstep s l) as [s1|] eqn:E; [|contradiction].
  apply IH; [econstructor; eassumption|exact H].
Qed.

(** thread 1 pushes 7 and 8 while thread 0 looks, swaps, looks and reads; then 9 is pushed while 0 uses the reference *)
Definition story : list qlabel :=
  [QCall 1 (Push 7)] ++ runs 1 3 ++ [QCall 0 Empty; QRun 0] ++ runs 1 2 ++ runs 0 4 ++ [QCall 0 Swap; QRun 0; QCall 1 (Push 8); QRun 1] ++
  runs 1 4 ++ runs 0 6 ++ [QCall 0 Empty] ++ runs 0 5 ++ [QCall 1 (Push 9); QCall 0 Front; QRun 1] ++ runs 0 5 ++ [QRun 1].

Example C138_nonvacuous : exists s r, qused 0 2 s /\ latest 0 (qevents s) = Some (LRet 0 Front (RFront 7 r)) /\
  nth_error (qpcs s) 1 = Some (QHalf (Push 9)) /\ pushed (qevents s) = [7; 8] /\ taken (qevents s) = [] /\ to_read s = [7; 8] /\ to_swap s = [].
Proof.
  destruct (used_steps 0 2 story (qinit 2)) as (s & E & U).
  - constructor.
  - vm_compute. repeat (split; try exact I; try reflexivity).
  - exists s, {| r_queue := Beta; r_number := 0 |}. split; [exact U|]. vm_compute in E. injection E as <-. vm_compute. repeat split; reflexivity.
Qed.

Definition ending : list qlabel :=
  runs 1 3 ++ [QCall 0 Pop] ++ runs 0 5 ++ [QCall 0 Empty] ++ runs 0 5 ++ [QCall 0 FrontAndPop] ++ runs 0 5 ++ [QCall 0 Empty] ++ runs 0 5 ++ [QCall 0 Swap] ++ runs 0 7 ++
  [QCall 0 Empty] ++ runs 0 5 ++ [QCall 0 FrontAndPop] ++ runs 0 5 ++ [QCall 0 BothEmpty] ++ runs 0 4.
Example C138_both_empty_nonvacuous : exists s evs, qused 0 2 s /\ qevents s = LDo 0 BothEmpty (RBool true) :: evs /\ taken evs = [7; 8; 9].
Proof.
  destruct (used_steps 0 2 (story ++ ending) (qinit 2)) as (s & E & U).
  - constructor.
  - vm_compute. repeat (split; try exact I; try reflexivity). right. do 2 eexists. reflexivity.
  - exists s, (tl (qevents s)). split; [exact U|]. vm_compute in E. injection E as <-. vm_compute. split; reflexivity.
Qed.

Lemma reach_steps n ls s s' : qreachable n s -> qsteps s ls = Some s' -> qreachable n s'.
Proof.
  revert s. induction ls as [|l ls IH]; cbn; intros s R H; [congruence|]. destruct (qstep s l) as [s1|] eqn:E; [|discriminate]. eapply IH; [econstructor; eassumption|exact H].
Qed.

(** a thread waits for a lock while another one can go on *)
Example C138_progress_nonvacuous : exists s, qreachable 2 s /\ nth_error (qpcs s) 0 = Some (QLockB Swap) /\ qstep s (QRun 0) = None /\ qstep s (QRun 1) <> None.
Proof.
  destruct (qsteps (qinit 2) [QCall 1 (Push 7); QRun 1; QCall 0 Swap; QRun 0]) as [s|] eqn:E; [|discriminate].
  exists s. split; [eapply reach_steps; [constructor|exact E]|]. vm_compute in E. injection E as <-. vm_compute. repeat split; discriminate.
Qed.

(** ** what the intended use excludes *)

(** Two readers: each finds that there is an element before it removes one, but there is only one. *)
Theorem C138_one_reader_needed : exists ls s, qsteps (qinit 2) ls = Some s /\ In (LDo 1 Pop RUndefined) (qevents s) /\
  (forall evs, evs = rev (qevents s) -> exists a b, evs = a ++ [LRet 1 Empty (RBool false)] ++ b /\ ~ In (LDo 1 Pop RUndefined) a).
Proof.
  exists ([QCall 0 (Push 7)] ++ runs 0 5 ++ [QCall 0 Swap] ++ runs 0 7 ++ [QCall 0 Empty] ++ runs 0 5 ++ [QCall 1 Empty] ++ runs 1 5 ++ [QCall 0 Pop] ++ runs 0 5 ++ [QCall 1 Pop] ++ runs 1 5).
  eexists. split; [vm_compute; reflexivity|]. split; [vm_compute; auto|].
  intros evs ->. exists [LCall 0 (Push 7); LDo 0 (Push 7) RVoid; LRet 0 (Push 7) RVoid; LCall 0 Swap; LDo 0 Swap RVoid; LRet 0 Swap RVoid; LCall 0 Empty; LDo 0 Empty (RBool false);
    LRet 0 Empty (RBool false); LCall 1 Empty; LDo 1 Empty (RBool false)]. eexists. split; [reflexivity|].
  intro H. repeat (destruct H as [H|H]; [discriminate|]). exact H.
Qed.
Print Assumptions C138_one_reader_needed.

(** A swap with something left to read loses it. *)
Theorem C138_empty_needed : exists ls s, qsteps (qinit 1) ls = Some s /\ pushed (qevents s) = [7] /\ taken (qevents s) = [] /\ to_read s = [] /\ to_swap s = [].
Proof. exists ([QCall 0 (Push 7)] ++ runs 0 5 ++ [QCall 0 Swap] ++ runs 0 7 ++ [QCall 0 Swap] ++ runs 0 7). eexists. split; [vm_compute; reflexivity|]. repeat split. Qed.
Print Assumptions C138_empty_needed.
