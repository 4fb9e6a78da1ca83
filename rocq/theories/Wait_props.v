(** Theorems about wait handlers and counters. *)
From Verif Require Import Wait_model Wait_spec Wait_proofs Wait_return_proofs.
From Coq Require Import NArith.

(** C31.  [log s' = EvReturn t w r :: log s] says that the step is the return of a wait. *)
Theorem C31_true_reason : forall (V : Type) (above reached : V -> bool) (incr decr : V -> V) v en n s l s' t w r,
  reachable above reached incr decr anything (init v en n) s -> step above reached incr decr s l = Some s' ->
  log s' = EvReturn t w r :: log s ->
  match r with
  | Disabled => enabled s = false
  | Timeout => enabled s = true /\ w_pred w (value s) = false /\ w_timeout w <> 0 /\ w_start w + w_timeout w <= now s
  | ConditionMet => enabled s = true /\ exists v, w_pred w v = true /\ value s = if w_take w then decr v else v
  end.
Proof. exact reason_lemma. Qed.
Print Assumptions C31_true_reason.

Definition ready (v : nat) : bool := 3 <=? v.
Definition nat_steps := @steps nat (fun _ => false) (fun _ => false) S pred.

(** a thread waits for a value of at least 3 for at most 2 ms: another one sets 4, or time passes *)
Example C31_true_reason_met : option_map (fun s => map (fun e => match e with EvReturn _ _ r => Some r | _ => None end) (log s))
  (nat_steps (init 0 true 2) [Call 0 (Wait ready 2); Run 0 0; Run 0 0; Run 0 0; Tick; Call 1 (SetValue 4 true); Run 1 0; Run 1 0;
    Run 0 0; Run 0 0; Run 0 0; Run 0 0; Run 0 0]) = Some [Some ConditionMet].
Proof. vm_compute. reflexivity. Qed.
Example C31_true_reason_timeout : option_map (fun s => map (fun e => match e with EvReturn _ _ r => Some r | _ => None end) (log s))
  (nat_steps (init 0 true 2) [Call 0 (Wait ready 2); Run 0 0; Run 0 0; Run 0 0; Tick; Tick; Expire 0;
    Run 0 0; Run 0 0; Run 0 0; Run 0 0; Run 0 0]) = Some [Some Timeout].
Proof. vm_compute. reflexivity. Qed.

(** C32.  What is missing for the full claim: the threads that still have to release the mutex. *)
Theorem C32_none_blocked_partial : forall (V : Type) (above reached : V -> bool) (incr decr : V -> V) v en n s l s' t,
  reachable above reached incr decr anything (init v en n) s -> step above reached incr decr s l = Some s' ->
  log s' = EvDone t Kblocking :: log s ->
  enabled s' = false /\ waiting s' = 0 /\ forall u q, nth_error (threads s') u = Some q -> blocked_in_wait q = false.
Proof. exact blocking_lemma. Qed.
Print Assumptions C32_none_blocked_partial.

(** blocking_disable returns while a thread that was waiting is inside the wait and owns the mutex *)
Theorem C32_left_behind_refuted : exists ls l s s' p, c_steps 0 (init 0%N true 2) ls = Some s /\ c_step 0 s l = Some s' /\
  log s' = EvDone 1 Kblocking :: log s /\ nth_error (threads s') 0 = Some p /\ inside_wait p = true /\ mutex s' = Some 0.
Proof. exact left_behind_lemma. Qed.
Print Assumptions C32_left_behind_refuted.

Example C32_nonvacuous : option_map (fun s => (log s, enabled s)) (nat_steps (init 0 true 2)
  [Call 0 (Wait ready 0); Run 0 0; Run 0 0; Run 0 0; Call 1 (Control Kblocking); Run 1 0; Run 1 0; Run 1 0; Run 1 0; Run 1 0;
    Run 0 0; Run 0 0; Run 0 0; Run 0 0; Run 0 0; Run 1 0; Run 1 0; Run 1 0]) =
  Some ([EvDone 1 Kblocking;
    EvReturn 0 {| w_cv := Main; w_pred := ready; w_timeout := 0; w_take := false; w_start := 0 |} Disabled], false).
Proof. reflexivity. Qed.

(** C33, WaitHandler, IntWaitHandler and BooleanWaitHandler *)
Theorem C33_no_lost_wakeup : forall (V : Type) (above reached : V -> bool) (incr decr : V -> V) conditions v en n s t w dl,
  reachable above reached incr decr (plain_client conditions) (init v en n) s ->
  nth_error (threads s) t = Some (WSleep w dl) -> (forall u q, nth_error (threads s) u = Some q -> about_to_notify q = false) ->
  enabled s = true /\ w_pred w (value s) = false.
Proof. exact plain_wakeup_lemma. Qed.
Print Assumptions C33_no_lost_wakeup.

Example C33_no_lost_wakeup_nonvacuous : exists s w,
  reachable (fun _ => false) (fun _ => false) S pred (plain_client (fun c => c = ready)) (init 0 true 2) s /\
  nth_error (threads s) 0 = Some (WSleep w (Some 2)) /\ value s = 1 /\
  (forall u q, nth_error (threads s) u = Some q -> about_to_notify q = false).
Proof.
  eexists. eexists. split.
  - eapply (reach_step _ _ _ _ _ _ _ _ (Run 1 0)); [eapply (reach_step _ _ _ _ _ _ _ _ (Call 1 (SetValue 1 false))); [eapply (reach_step _ _ _ _ _ _ _ _ (Run 0 0)); [eapply (reach_step _ _ _ _ _ _ _ _ (Run 0 0)); [eapply (reach_step _ _ _ _ _ _ _ _ (Run 0 0)); [eapply (reach_step _ _ _ _ _ _ _ _ (Call 0 (Wait ready 2))); [constructor|reflexivity|reflexivity]|exact I|reflexivity]|exact I|reflexivity]|exact I|reflexivity]|intros p ->; reflexivity|reflexivity]|exact I|reflexivity].
  - split; [reflexivity|]. split; [reflexivity|]. intros [|[|u]] q H; cbn in H; try (injection H as <-; reflexivity). destruct u; discriminate.
Qed.

(** C33, CounterWaitHandler: threads that wait for a unit *)
Theorem C33_no_lost_unit : forall (V : Type) (above reached : V -> bool) (incr decr : V -> V) v en n s t p,
  reachable above reached incr decr counter_client (init v en n) s ->
  nth_error (threads s) t = Some p -> sleeping Main p = true -> enabled s = true -> above (value s) = true ->
  exists u q, nth_error (threads s) u = Some q /\ (awake_taker q || about_to_notify q) = true.
Proof. exact counter_wakeup_lemma. Qed.
Print Assumptions C33_no_lost_unit.

(** two units are produced for two sleeping threads: at the end the first one has been woken by
    ++, and the second by the first *)
Example C33_no_lost_unit_nonvacuous :
  let prefix := [Call 0 (WaitAndDecrement 0); Run 0 0; Run 0 0; Run 0 0; Call 1 (WaitAndDecrement 0); Run 1 0; Run 1 0; Run 1 0;
    Call 2 Increment; Run 2 0] in
  option_map (fun s => (value s, map (sleeping Main) (threads s))) (c_steps 0 (init 0%N true 3) prefix) = Some (1%N, [false; true; false]) /\
  option_map (fun s => (value s, length (log s), map (sleeping Main) (threads s)))
    (c_steps 0 (init 0%N true 3) (prefix ++ [Call 2 Increment; Run 2 1; Run 0 0; Run 0 0; Run 0 0; Run 0 0; Run 0 0; Run 1 0; Run 1 0; Run 1 0; Run 1 0; Run 1 0]))
  = Some (0%N, 2, [false; false; false]).
Proof. split; vm_compute; reflexivity. Qed.

(** C33, CounterWaitHandler: threads that wait for the threshold.  What is missing: increments
    that reach the threshold. *)
Theorem C33_threshold_partial : forall (V : Type) (above reached : V -> bool) (incr decr : V -> V),
  (forall v, above v = true -> reached v = false) -> forall v en n s t w dl,
  reachable above reached incr decr (threshold_client reached incr) (init v en n) s ->
  nth_error (threads s) t = Some (WSleep w dl) -> w_cv w = Thr -> reached (value s) = false.
Proof. exact threshold_wakeup_lemma. Qed.
Print Assumptions C33_threshold_partial.

Example C33_threshold_partial_nonvacuous : exists s w,
  reachable (c_above 0) (c_reached 0) c_incr c_decr (threshold_client (c_reached 0) c_incr) (init 1%N true 2) s /\
  nth_error (threads s) 0 = Some (WSleep w None) /\ w_cv w = Thr /\ value s = 2%N.
Proof.
  eexists. eexists. split.
  - eapply (reach_step _ _ _ _ _ _ _ _ (Run 1 0)); [eapply (reach_step _ _ _ _ _ _ _ _ (Call 1 Increment)); [eapply (reach_step _ _ _ _ _ _ _ _ (Run 0 0)); [eapply (reach_step _ _ _ _ _ _ _ _ (Run 0 0)); [eapply (reach_step _ _ _ _ _ _ _ _ (Run 0 0)); [eapply (reach_step _ _ _ _ _ _ _ _ (Call 0 (WaitThreshold 0))); [constructor|split; exact I|vm_compute; reflexivity]|split; [exact I|discriminate]|vm_compute; reflexivity]|split; [exact I|discriminate]|vm_compute; reflexivity]|split; [exact I|discriminate]|vm_compute; reflexivity]|split; exact I|vm_compute; reflexivity]|split; [exact I|reflexivity]|vm_compute; reflexivity].
  - split; [reflexivity|]. split; reflexivity.
Qed.

Theorem C33_threshold_refuted : exists ls s w, c_steps 5 (init 3%N true 2) ls = Some s /\
  enabled s = true /\ nth_error (threads s) 0 = Some (WSleep w None) /\ w_pred w (value s) = true /\
  nth_error (threads s) 1 = Some Idle /\ length (threads s) = 2.
Proof. exact lost_threshold_lemma. Qed.
Print Assumptions C33_threshold_refuted.

(** C34.  What is missing: the threads that wait for the threshold, which are not woken. *)
Theorem C34_disable_wakes_partial : forall (V : Type) (above reached : V -> bool) (incr decr : V -> V) v en n s l s' t,
  reachable above reached incr decr anything (init v en n) s -> step above reached incr decr s l = Some s' ->
  log s' = EvDone t Kdisable :: log s ->
  enabled s' = false /\ forall u q, nth_error (threads s') u = Some q -> sleeping Main q = false.
Proof. exact disable_lemma. Qed.
Print Assumptions C34_disable_wakes_partial.

(** while blocking_disable waits, nobody sleeps *)
Theorem C34_blocking_disable_wakes_partial : forall (V : Type) (above reached : V -> bool) (incr decr : V -> V) v en n s t p,
  reachable above reached incr decr anything (init v en n) s ->
  nth_error (threads s) t = Some p -> in_disable_loop p = true ->
  enabled s = false /\ forall u q, nth_error (threads s) u = Some q -> sleeping Main q = false.
Proof. exact loop_no_sleeper_lemma. Qed.
Print Assumptions C34_blocking_disable_wakes_partial.

(** Thread 0 waits for the counter to reach its threshold and thread 1 calls blocking_disable.
    Whatever happens next, unless thread 0 is woken for no reason, neither call ever returns. *)
Theorem C34_blocking_disable_refuted : exists ls s, c_steps 0 (init 1%N true 2) ls = Some s /\
  forall ls' s', (forall l, In l ls' -> l <> Spurious 0) -> c_steps 0 s ls' = Some s' ->
    (exists w, nth_error (threads s') 0 = Some (WSleep w None)) /\
    (exists p, nth_error (threads s') 1 = Some p /\ in_disable_loop p = true).
Proof. exact stuck_lemma. Qed.
Print Assumptions C34_blocking_disable_refuted.

(** From any moment at which blocking_disable (or stop_and_continue) waits for the waiting threads
    and none of them sleeps until the threshold is reached, the threads can go on, without any
    spurious wake-up, time out or further call, so that it returns.  What is missing: with a thread
    that waits for the threshold it may not, as [C34_blocking_disable_refuted] shows. *)
Theorem C34_blocking_disable_returns_partial : forall (V : Type) (above reached : V -> bool) (incr decr : V -> V) v en n s t p,
  reachable above reached incr decr anything (init v en n) s ->
  nth_error (threads s) t = Some p -> in_disable_loop p = true ->
  (forall u q, nth_error (threads s) u = Some q -> sleeping Thr q = false) ->
  exists ls s' k earlier, (forall l, In l ls -> exists u pick, l = Run u pick) /\
    steps above reached incr decr s ls = Some s' /\ log s' = EvDone t k :: earlier /\
    nth_error (threads s') t = Some Idle.
Proof. exact disable_returns_lemma. Qed.
Print Assumptions C34_blocking_disable_returns_partial.

(** thread 0 is asleep waiting to take a unit when thread 1 calls blocking_disable *)
Example C34_returns_nonvacuous : exists s, c_steps 5 (init 0%N true 2)
  [Call 0 (WaitAndDecrement 0); Run 0 0; Run 0 0; Run 0 0; Call 1 (Control Kblocking); Run 1 0; Run 1 0; Run 1 0; Run 1 0; Run 1 0] = Some s /\
  (exists w, nth_error (threads s) 0 = Some (WWoken w None false)) /\
  nth_error (threads s) 1 = Some (BMutex Kblocking) /\ waiting s = 1 /\
  (forall u q, nth_error (threads s) u = Some q -> sleeping Thr q = false) /\
  exists s', c_steps 5 s [Run 1 0; Run 1 0; Run 0 0; Run 0 0; Run 0 0; Run 0 0; Run 0 0; Run 1 0] = Some s' /\
    exists w, log s' = [EvDone 1 Kblocking; EvReturn 0 w Disabled].
Proof.
  eexists. split; [vm_compute; reflexivity|]. split; [eexists; reflexivity|]. split; [reflexivity|]. split; [reflexivity|]. split.
  - intros [|[|u]] q H; cbn in H; try discriminate; [injection H as <-; reflexivity|injection H as <-; reflexivity|].
    destruct u; discriminate.
  - eexists. split; [vm_compute; reflexivity|]. eexists. reflexivity.
Qed.
