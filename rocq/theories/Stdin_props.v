(** Properties C87 to C93. *)
From Verif Require Import Stdin_model Stdin_spec Stdin_proofs.

Definition set_by (t : nat) : list slabel := Call t SetCallback :: repeat (Run t) 5.
Definition unset_until_join (t : nat) : list slabel := Call t UnsetCallback :: repeat (Run t) 3.
Definition more_by (t : nat) : list slabel := [Call t More; Run t].
(** one line from TWait to TWait *)
Definition line (l : str) : list slabel := [Reader; Typed l; Reader; Reader; Reader].
Definition sample : setup := {| threads := 2; lines := 1; stream := [s "x"]; initial := 35387%N |}.

Lemma ran c allowed ls : Forall allowed ls -> forall s', ssteps (made c) ls = Some s' -> sreachable c allowed s'.
Proof. intros F s' E. eapply reach_steps; [apply sr_init|exact F|exact E]. Qed.
Ltac everything := repeat (apply Forall_cons; [exact Logic.I|]); apply Forall_nil.
Ltac run ls := match goal with |- exists s, sreachable ?c ?a s /\ _ =>
  let E := fresh "E" in destruct (ssteps (made c) ls) as [s0|] eqn:E; [|vm_compute in E; discriminate E];
  exists s0; split; [apply (ran c a ls); [everything|exact E]|]; vm_compute in E; injection E as <- end.

(** ** C87 Number of lines *)
(** Partial: lines_to_read is not negative and fewer than 2^32 lines are requested. *)
Theorem C87_lines_partial : forall c allowed s, sreachable c allowed s -> (0 <= lines c)%Z -> (requested c s < 2 ^ 32)%Z ->
  (Z.of_nat (List.length (typed (history s))) <= Z.of_nat (begun (history s)) <= requested c s)%Z /\
  (waiting s -> Z.of_nat (List.length (typed (history s))) = requested c s).
Proof. exact lines_lemma. Qed.
Print Assumptions C87_lines_partial.

Example C87_lines_partial_nonvacuous : exists s0, sreachable sample anything s0 /\ requested sample s0 = 3%Z /\ waiting s0 /\ typed (history s0) = [s "one"; s "two"; []].
Proof. run (set_by 0 ++ [Reader] ++ line (s "one") ++ more_by 1 ++ more_by 0 ++ line (s "two") ++ line []). unfold requested, waiting. vm_compute. repeat split. Qed.

(** The full claim fails: with a negative number the handler reads, *)
Theorem C87_negative_refuted : exists c s, sreachable c anything s /\ (- 2 ^ 31 <= lines c)%Z /\ (requested c s < 0)%Z /\ begun (history s) = 1.
Proof.
  exists {| threads := 1; lines := -1; stream := []; initial := 0%N |}.
  run (set_by 0 ++ [Reader; Reader]). unfold requested. repeat split; vm_compute; congruence.
Qed.
Print Assumptions C87_negative_refuted.

(** and 2^32 requests are none. *)
Theorem C87_overflow_refuted : exists c s, sreachable c anything s /\ lines c = 0%Z /\ requested c s = (2 ^ 32)%Z /\ waiting s /\ typed (history s) = [].
Proof.
  exists {| threads := 1; lines := 0; stream := []; initial := 0%N |}.
  destruct (ssteps (made {| threads := 1; lines := 0; stream := []; initial := 0%N |}) (set_by 0 ++ [Reader])) as [s0|] eqn:E; [|vm_compute in E; discriminate E].
  assert (sreachable {| threads := 1; lines := 0; stream := []; initial := 0%N |} anything s0) as R by (eapply ran; [|exact E]; everything).
  vm_compute in E; injection E as <-.
  edestruct (many _ _ (N.to_nat (2 ^ 32)) _ R (fun _ _ => Logic.I) (fun _ => Logic.I)) as (s' & R' & V & En & Re & As & Ty); [reflexivity|reflexivity|].
  exists s'. split; [exact R'|]. split; [reflexivity|]. unfold requested, waiting. rewrite V, En, Re, As, Ty. rewrite N2Nat.id. split.
  - change (asked _) with 0. cbn [lines Nat.add]. rewrite N_nat_Z. reflexivity.
  - split; [split; [reflexivity|split; [reflexivity|vm_compute; reflexivity]]|reflexivity].
Qed.
Print Assumptions C87_overflow_refuted.

(** ** C88 Delivery *)
(** Every line typed is passed to the callback or dropped, once and in order; at most the last one is still to be. *)
Theorem C88_order : forall c allowed s, sreachable c allowed s ->
  exists later, typed (history s) = handled (history s) ++ later /\ List.length later <= 1 /\ (reader s = TWait -> later = []).
Proof. exact delivers_lemma. Qed.
Print Assumptions C88_order.

(** A line is dropped only when there is no callback, *)
Theorem C88_dropped : forall c allowed s l older, sreachable c allowed s -> moment s (VDropped l) older -> last_kept older = false.
Proof. exact dropped_lemma. Qed.
Print Assumptions C88_dropped.

(** so without unset_callback every line is passed to the callback. *)
Theorem C88_each_partial : forall c allowed s, sreachable c allowed s -> (forall t, ~ In (VClearing t) (history s)) ->
  exists later, typed (history s) = called (history s) ++ later /\ List.length later <= 1 /\ (reader s = TWait -> later = []).
Proof. exact each_lemma. Qed.
Print Assumptions C88_each_partial.

Example C88_each_partial_nonvacuous : exists s0, sreachable sample anything s0 /\ (forall t, ~ In (VClearing t) (history s0)) /\ reader s0 = TWait /\ called (history s0) = [s "one"; s "two"; []].
Proof.
  run (set_by 0 ++ [Reader] ++ line (s "one") ++ more_by 1 ++ more_by 0 ++ line (s "two") ++ line []).
  split; [intros t H; cbn in H; intuition discriminate|]. vm_compute. repeat split.
Qed.

(** A line requested and typed is lost when unset_callback is called while it is being typed; it is also lost for a callback set later. *)
Definition interrupted : list slabel := set_by 0 ++ [Reader; Reader] ++ unset_until_join 0 ++ [Typed (s "lost"); Reader; Reader; Reader; Reader; Run 0; Run 0] ++ set_by 1 ++ [Reader].
Theorem C88_lost_refuted : exists s0, sreachable sample quiet s0 /\ typed (history s0) = [s "lost"] /\ called (history s0) = [] /\ requested sample s0 = 1%Z /\ waiting s0.
Proof. run interrupted. unfold requested, waiting. vm_compute. repeat split. Qed.
Print Assumptions C88_lost_refuted.
Example C88_dropped_nonvacuous : exists s0, sreachable sample quiet s0 /\ exists older, moment s0 (VDropped (s "lost")) older /\ last_kept older = false.
Proof. run interrupted. eexists. split; [eexists [_; _; _; _]; reflexivity|reflexivity]. Qed.

(** Without set_ignore_input the history of commands gets the lines typed that are not empty, even those that are dropped. *)
Theorem C88_history : forall c s, sreachable c attentive s -> reader s = TWait -> added (history s) = filter filled (typed (history s)).
Proof. exact adds_lemma. Qed.
Print Assumptions C88_history.

Example C88_history_nonvacuous : exists s0, sreachable sample attentive s0 /\ reader s0 = TWait /\ added (history s0) = [s "one"; s "two"] /\ typed (history s0) = [s "one"; []; s "two"].
Proof. run (set_by 0 ++ [Reader] ++ line (s "one") ++ more_by 1 ++ more_by 0 ++ line [] ++ line (s "two")). vm_compute. repeat split. Qed.

(** ** C89 The callback is called only while set *)
Theorem C89_only_set : forall c allowed s e older, sreachable c allowed s -> moment s e older -> a_call e -> last_kept older = true.
Proof. exact only_set_lemma. Qed.
Print Assumptions C89_only_set.

(** Once unset_callback returned, the callback is not running and there is no thread. *)
Theorem C89_unset : forall c allowed s, sreachable c allowed s -> last_set (history s) = false -> ~ running s /\ reader s = TNone.
Proof. exact unset_lemma. Qed.
Print Assumptions C89_unset.

Example C89_nonvacuous : exists s0, sreachable sample anything s0 /\ last_set (history s0) = false /\ called (history s0) = [s "one"] /\
  moment s0 (VCalled (s "one")) [VTyped (s "one"); VBegin; VSet 0; VSetting 0].
Proof.
  run (set_by 0 ++ [Reader] ++ line (s "one") ++ unset_until_join 1 ++ [Reader; Reader; Run 1; Run 1]).
  split; [reflexivity|]. split; [reflexivity|]. eexists [_; _; _; _]. reflexivity.
Qed.

(** ** C90 unset_callback and the destructor return *)
(** Partial: unless a line is being read, they do.  By themselves the threads take a bounded number of steps; then every thread has returned, or a line is being read. *)
Theorem C90_returns_partial : forall c s, sreachable c quiet s -> exists bound, forall ls s', Forall own_step ls -> ssteps s ls = Some s' ->
  List.length ls <= bound /\ (at_rest s' -> reader s' = TRead \/ forall t p, nth_error (clients s') t = Some p -> p = CIdle).
Proof. exact progress_lemma. Qed.
Print Assumptions C90_returns_partial.

Example C90_returns_partial_nonvacuous : exists s0, sreachable sample quiet s0 /\ nth_error (clients s0) 1 = Some UJoin /\ exists ls s', Forall own_step ls /\ ssteps s0 ls = Some s' /\ at_rest s' /\ nth_error (clients s') 1 = Some CIdle.
Proof.
  run (set_by 0 ++ [Reader] ++ line (s "one") ++ unset_until_join 1). split; [reflexivity|]. exists [Reader; Reader; Run 1; Run 1]. eexists.
  split; [everything|]. split; [vm_compute; reflexivity|]. split; [|reflexivity]. intros [x| |k|b|t k|t] O; try contradiction O; [reflexivity|]. destruct t as [|[|[|t]]]; reflexivity.
Qed.

(** While a line is being read, unset_callback returns when the user ends that line: no second line is needed, *)
Theorem C90_one_line : forall c s t l, sreachable c quiet s -> nth_error (clients s) t = Some UJoin -> reader s = TRead -> exists bound s1, sstep s (Typed l) = Some s1 /\
  forall ls s', Forall own_step ls -> ssteps s1 ls = Some s' -> List.length ls <= bound /\ (at_rest s' -> nth_error (clients s') t = Some CIdle).
Proof. exact one_line_lemma. Qed.
Print Assumptions C90_one_line.

(** and never before: whatever else happens, it does not return. *)
Theorem C90_waits : forall c allowed s t, sreachable c allowed s -> nth_error (clients s) t = Some UJoin -> reader s = TRead -> blocked typing s t.
Proof. exact join_blocked. Qed.
Print Assumptions C90_waits.

(** So the claim fails: nobody types, and unset_callback never returns. *)
Theorem C90_silence_refuted : exists s0 t, sreachable sample quiet s0 /\ nth_error (clients s0) t = Some UJoin /\ reader s0 = TRead /\ blocked typing s0 t.
Proof.
  assert (exists s0, sreachable sample quiet s0 /\ nth_error (clients s0) 1 = Some UJoin /\ reader s0 = TRead) as (s0 & R & H & W).
  { run (set_by 0 ++ [Reader; Reader] ++ unset_until_join 1). split; reflexivity. }
  exists s0, 1. repeat split; auto. exact (join_blocked _ _ _ _ R H W).
Qed.
Print Assumptions C90_silence_refuted.

(** ** C91 The callback may use its handler *)
(** Partial: it may call read_one_more_line; this is included in [quiet], for which C90 holds, and: *)
Theorem C91_more_partial : forall c s, sreachable c quiet s -> ~ In VTerminate (history s).
Proof. exact no_terminate. Qed.
Print Assumptions C91_more_partial.

Definition asking : list slabel := [Reader; Typed (s "more"); Reader; Nested NMore; Reader; Reader].
Example C91_more_partial_nonvacuous : exists s0, sreachable sample quiet s0 /\ called (history s0) = [s "more"; s "more"; s "more"] /\ requested sample s0 = 4%Z /\ reader s0 = TWait.
Proof. run (set_by 0 ++ [Reader] ++ asking ++ asking ++ asking). unfold requested. vm_compute. repeat split. Qed.

(** unset_callback called by the callback: the thread joins itself and the program is terminated. *)
Theorem C91_unset_refuted : exists s0, sreachable sample anything s0 /\ history s0 = [VTerminate; VCalled (s "quit"); VTyped (s "quit"); VBegin; VSet 0; VSetting 0].
Proof. run (set_by 0 ++ [Reader; Reader; Typed (s "quit"); Reader; Nested NUnset; Reader; Reader]). reflexivity. Qed.
Print Assumptions C91_unset_refuted.

(** set_callback or unset_callback called by the callback while another thread is in one of them: both wait for ever. *)
Theorem C91_embrace : forall c allowed s t b l, sreachable c allowed s -> reader s = TNest b l -> nth_error (clients s) t = Some UClear \/ nth_error (clients s) t = Some SSet -> blocked nothing_excluded s t.
Proof. exact embrace_blocked. Qed.
Print Assumptions C91_embrace.
Theorem C91_set_refuted : exists s0 t l, sreachable sample anything s0 /\ reader s0 = TNest true l /\ nth_error (clients s0) t = Some UClear /\ blocked nothing_excluded s0 t.
Proof.
  assert (exists s0, sreachable sample anything s0 /\ reader s0 = TNest true (s "set") /\ nth_error (clients s0) 1 = Some UClear) as (s0 & R & W & H).
  { run (set_by 0 ++ [Reader; Reader; Typed (s "set"); Reader; Call 1 UnsetCallback; Run 1; Nested NSet]). split; reflexivity. }
  exists s0, 1, (s "set"). repeat split; auto. eapply embrace_blocked; [exact R|exact W|left; exact H].
Qed.
Print Assumptions C91_set_refuted.

(** ** C92 The terminal *)
(** Partial: one handler at a time.  When unset_callback has returned, the terminal is as it was, *)
Theorem C92_restored_partial : forall c allowed s, sreachable c allowed s -> last_set (history s) = false -> flags (term s) = initial c.
Proof. exact restored_lemma. Qed.
Print Assumptions C92_restored_partial.

Example C92_restored_partial_nonvacuous : exists s0, sreachable sample anything s0 /\ last_set (history s0) = false /\ called (history s0) = [s "one"] /\ raw (initial sample) <> initial sample.
Proof.
  run (set_by 0 ++ [Reader] ++ line (s "one") ++ unset_until_join 1 ++ [Reader; Reader; Run 1; Run 1]).
  split; [reflexivity|]. split; [reflexivity|]. vm_compute. discriminate.
Qed.

(** and while a line is read it has no echo, line editing nor signals, and is otherwise as it was; *)
Theorem C92_reading : forall c allowed s, sreachable c allowed s -> reader s = TRead ->
  is_raw (flags (term s)) /\ forall k, k <> 0%N -> k <> 1%N -> k <> 3%N -> N.testbit (flags (term s)) k = N.testbit (initial c) k.
Proof. exact reading_lemma. Qed.
Print Assumptions C92_reading.

Example C92_reading_nonvacuous : exists s0, sreachable sample anything s0 /\ reader s0 = TRead /\ ~ is_raw (initial sample).
Proof.
  run (set_by 0 ++ [Reader; Reader]).
  split; [reflexivity|]. intros [H _]; vm_compute in H; discriminate.
Qed.

(** also after any number of handlers one after the other. *)
Theorem C92_sessions_partial : forall f hs, flags (shared (modes f (sessions hs))) = f /\ active (modes f (sessions hs)) = [].
Proof. exact sessions_lemma. Qed.
Print Assumptions C92_sessions_partial.

Example C92_sessions_partial_nonvacuous : flags (shared (modes 35387 (sessions [0; 1; 0]))) = 35387%N /\ List.length (sessions [0; 1; 0]) = 6.
Proof. split; vm_compute; reflexivity. Qed.

(** Once two handlers have been active at the same time, the terminal remains without echo, line editing and signals for ever, *)
Theorem C92_overlap : forall f hs hs' g h l, active (modes f hs) = g :: h :: l -> is_raw (flags (shared (modes f (hs ++ hs')))).
Proof. exact overlap_lemma. Qed.
Print Assumptions C92_overlap.

(** even when no handler is left. *)
Theorem C92_refuted : exists f hs, active (modes f hs) = [] /\ ~ is_raw f /\ is_raw (flags (shared (modes f hs))).
Proof. exists 35387%N, [0; 1; 0; 1]. split; [reflexivity|]. split; [intros [H _]; vm_compute in H; discriminate|repeat split]. Qed.
Print Assumptions C92_refuted.
Example C92_overlap_nonvacuous : active (modes 35387 [0; 1]) = [1; 0]. Proof. reflexivity. Qed.

(** ** C93 The stream given to the constructor *)
(** Nothing is ever read from it, *)
Theorem C93_unused : forall c allowed s, sreachable c allowed s -> source s = stream c.
Proof. exact source_lemma. Qed.
Print Assumptions C93_unused.

(** so a handler asked to read a line that is there waits for the user, and nothing is delivered until then. *)
Theorem C93_refuted : exists s0, sreachable sample quiet s0 /\ stream sample = [s "x"] /\ requested sample s0 = 1%Z /\ last_set (history s0) = true /\ at_rest s0 /\ reader s0 = TRead /\ called (history s0) = [].
Proof.
  run (set_by 0 ++ [Reader; Reader]). unfold requested. split; [reflexivity|]. split; [reflexivity|]. split; [reflexivity|]. split; [|split; reflexivity].
  intros [x| |k|b|t k|t] O; try contradiction O; [reflexivity|]. destruct t as [|[|[|t]]]; reflexivity.
Qed.
Print Assumptions C93_refuted.
