(** Theorems of C156. *)
From Verif Require Import Signal_model Signal_spec Signal_proofs SignalRest_spec SignalRest_proofs.

(** C156. Whatever the threads do, they can go on only finitely often until somebody calls a function or a signal arrives; when none can go on, every function has returned, every signal
    has been noticed and the thread of the manager waits for signals or has ended: for callbacks that call no function of the manager. *)
Theorem C156_rest_partial : forall n s, sreachable quiet n s -> exists bound, forall ls s', Forall goes_on ls -> ssteps s ls = Some s' ->
  length ls <= bound /\ (at_rest s' -> notifying s' = 0 /\ (manager s' = MSleep \/ manager s' = MEnded) /\ forall t p, nth_error (clients s') t = Some p -> inside p = false).
Proof. exact rest_lemma. Qed.
Print Assumptions C156_rest_partial.
(** C156. Then every signal that arrived has been dispatched, while the manager is not destroyed: for fewer than 2^32 signals, none of them between the test and the wait of the thread. *)
Theorem C156_dispatched_partial : forall n s, sreachable alive n s -> at_rest s -> ~ In VLost (history s) -> (number arrival (history s) < W)%N -> number dispatch (history s) = number arrival (history s).
Proof. exact dispatched_lemma. Qed.
Print Assumptions C156_dispatched_partial.

(** three threads at once: one is destroying the manager, another sets a callback, a signal is being handled *)
Example C156_rest_nonvacuous : exists s s', sreachable quiet 2 s /\ clients s = [DLock; SLock 3] /\ notifying s = 1 /\ Forall goes_on ([Notify] ++ repeat Manager 2 ++ repeat (Run 1) 5 ++ repeat Manager 9 ++ [Run 0; Run 0; Manager; Run 0]) /\
  ssteps s ([Notify] ++ repeat Manager 2 ++ repeat (Run 1) 5 ++ repeat Manager 9 ++ [Run 0; Run 0; Manager; Run 0]) = Some s' /\ at_rest s' /\ manager s' = MEnded /\ number dispatch (history s') = 1%N.
Proof.
  destruct (ssteps (sinit 2) [Call 0 Destroy; Call 1 (SetCallback 3); Arrive]) as [s|] eqn:E; [|vm_compute in E; discriminate]. exists s.
  destruct (ssteps s ([Notify] ++ repeat Manager 2 ++ repeat (Run 1) 5 ++ repeat Manager 9 ++ [Run 0; Run 0; Manager; Run 0])) as [s'|] eqn:E'; [|vm_compute in E; injection E as <-; vm_compute in E'; discriminate]. exists s'.
  split; [eapply ssteps_reach; [constructor| |exact E]; repeat (apply Forall_cons; [discriminate|]); apply Forall_nil|]. vm_compute in E. injection E as <-. split; [reflexivity|]. split; [reflexivity|]. split.
  { cbn [repeat app]. repeat (apply Forall_cons; [unfold goes_on; eauto|]). apply Forall_nil. }
  split; [reflexivity|]. vm_compute in E'. injection E' as <-. split; [|split; reflexivity]. intros l [-> |[-> |[t ->]]]; [reflexivity|reflexivity|]. destruct t as [|[|t]]; [reflexivity|reflexivity|]. cbn. destruct t; reflexivity.
Qed.
Example C156_dispatched_nonvacuous : exists s, sreachable alive 1 s /\ at_rest s /\ ~ In VLost (history s) /\ number arrival (history s) = 2%N /\ called (history s) = [(1%N, Raw 7); (1%N, Raw 7)].
Proof.
  destruct (ssteps (sinit 1) ([Call 0 (Register 7); Run 0; Arrive; Arrive; Notify; Notify] ++ repeat Manager 25)) as [s|] eqn:E; [|vm_compute in E; discriminate]. exists s.
  split; [eapply ssteps_reach; [constructor| |exact E]; cbn [repeat app]; repeat (apply Forall_cons; [split; discriminate|]); apply Forall_nil|]. vm_compute in E. injection E as <-.
  split; [|split; [|split; reflexivity]]. { intros l [-> |[-> |[t ->]]]; [reflexivity|reflexivity|]. destruct t as [|t]; [reflexivity|]. cbn. destruct t; reflexivity. }
  cbn. intuition discriminate.
Qed.

(** C156. Refuted: a signal whose notification comes between the test and the wait is not dispatched. *)
Theorem C156_lost_refuted : exists s, sreachable alive 1 s /\ at_rest s /\ number arrival (history s) = 1%N /\ number dispatch (history s) = 0%N /\ registered (history s) 1 = Some (Raw 7).
Proof.
  destruct (ssteps (sinit 1) ([Call 0 (Register 7); Run 0] ++ repeat Manager 4 ++ [Arrive; Notify; Manager])) as [s|] eqn:E; [|vm_compute in E; discriminate]. exists s.
  split; [eapply ssteps_reach; [constructor| |exact E]; cbn [repeat app]; repeat (apply Forall_cons; [split; discriminate|]); apply Forall_nil|]. vm_compute in E. injection E as <-.
  split; [|split; [|split]; reflexivity]. intros l [-> |[-> |[t ->]]]; [reflexivity|reflexivity|]. destruct t as [|t]; [reflexivity|]. cbn. destruct t; reflexivity.
Qed.
Print Assumptions C156_lost_refuted.
(** C156. Refuted: with a callback that calls a function of the manager nobody can go on, while another thread is inside a function. *)
Theorem C156_nested_refuted : exists s t p, sreachable anything 1 s /\ at_rest s /\ nth_error (clients s) t = Some p /\ inside p = true.
Proof.
  destruct (ssteps (sinit 1) ([Call 0 (Register 7); Run 0; Arrive; Notify] ++ repeat Manager 8 ++ [Nested; Call 0 (Register 8)])) as [s|] eqn:E; [|vm_compute in E; discriminate]. exists s, 0, (CRegister (Raw 8)).
  split; [eapply ssteps_reach; [constructor| |exact E]; cbn [repeat app]; repeat (apply Forall_cons; [exact I|]); apply Forall_nil|]. vm_compute in E. injection E as <-.
  split; [|split; reflexivity]. intros l [-> |[-> |[t ->]]]; [reflexivity|reflexivity|]. destruct t as [|t]; [reflexivity|]. cbn. destruct t; reflexivity.
Qed.
Print Assumptions C156_nested_refuted.
