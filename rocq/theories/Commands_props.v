(** Properties C94 and C95. *)
From Verif Require Import Commands_model Commands_spec Commands_proofs.

Lemma ran n allowed ls : Forall allowed ls -> forall x', rsteps (rinit n) ls = Some x' -> rreachable n allowed x'.
Proof. intros F x' E. eapply reach_steps; [apply rr_init|exact F|exact E]. Qed.
Ltac everything := repeat (apply Forall_cons; [exact Logic.I|]); apply Forall_nil.
Ltac run ls := match goal with |- exists x, rreachable ?n ?a x /\ _ =>
  let E := fresh "E" in destruct (rsteps (rinit n) ls) as [x0|] eqn:E; [|vm_compute in E; discriminate E];
  exists x0; split; [apply (ran n a ls); [everything|exact E]|]; vm_compute in E; injection E as <- end.

(** a call of read_next_command until it waits *)
Definition call_by (t : nat) : list rlabel := [Call t; Run t].
(** a line from TWait to TWait *)
Definition line (l : str) : list rlabel := [Thread; Typed l; Thread; Thread; Thread; Thread].

(** ** C94 Commands *)
Theorem C94_order : forall n allowed x, rreachable n allowed x -> exists later, typed (history x) = commands (history x) ++ later.
Proof. exact order_lemma. Qed.
Print Assumptions C94_order.

Theorem C94_one_each : forall n allowed x t p, rreachable n allowed x -> nth_error (readers x) t = Some p ->
  calls_by t (history x) = commands_by t (history x) + (if idle p then 0 else 1).
Proof. exact answers_lemma. Qed.
Print Assumptions C94_one_each.

(** Partial, here and below: lines are requested with read_next_command only. *)
Theorem C94_not_ahead_partial : forall n x, rreachable n plain x -> begun (history x) <= calls (history x) /\
  (all_idle x -> exists_queue x = true -> typed (history x) = commands (history x) /\ begun (history x) = List.length (commands (history x)) /\ thread x <> TRead).
Proof. exact ahead_lemma. Qed.
Print Assumptions C94_not_ahead_partial.
(** a line requested with stdin_handler().read_one_more_line() is read although nobody has called read_next_command *)
Theorem C94_ahead_refuted : exists x, rreachable 1 anything x /\ calls (history x) = 0 /\ begun (history x) = 1 /\ typed (history x) = [s "start"] /\ commands (history x) = [] /\ all_idle x /\ exists_queue x = true.
Proof.
  run ([Owner; Extra] ++ line (s "start")). repeat (split; [reflexivity|]). split; [|reflexivity]. intros [|[|t]] p H; [injection H as <-; reflexivity|discriminate H|discriminate H].
Qed.
Print Assumptions C94_ahead_refuted.

Theorem C94_returns_partial : forall n x, rreachable n plain x -> exists bound, forall ls x', Forall own_step ls -> rsteps x ls = Some x' ->
  List.length ls <= bound /\ (at_rest x' -> thread x' = TRead \/ all_idle x') /\ (at_rest x' -> List.length (typed (history x')) = calls (history x') -> all_idle x').
Proof. exact returns_lemma. Qed.
Print Assumptions C94_returns_partial.

(** two threads call, the user ends two lines, both calls return; a third call waits *)
Example C94_nonvacuous : exists x, rreachable 2 plain x /\ typed (history x) = [s "start"; s "stop"] /\
  commands (history x) = [s "start"; s "stop"] /\ calls (history x) = 3 /\ begun (history x) = 3 /\ thread x = TRead /\ readers x = [RConsume; RIdle].
Proof. run ([Owner] ++ call_by 0 ++ call_by 1 ++ line (s "start") ++ [Run 1; Run 1] ++ line (s "stop") ++ [Run 0; Run 0] ++ call_by 0 ++ [Thread]). repeat split. Qed.
Example C94_idle_nonvacuous : exists x, rreachable 1 plain x /\ commands (history x) = [s "start"] /\ all_idle x /\ exists_queue x = true /\ at_rest x /\
  List.length (typed (history x)) = calls (history x).
Proof.
  run ([Owner] ++ call_by 0 ++ line (s "start") ++ [Run 0; Run 0]). split; [reflexivity|]. split; [intros [|[|t]] p H; [injection H as <-; reflexivity|discriminate H|discriminate H]|]. split; [reflexivity|]. split; [|reflexivity].
  intros a O. destruct a as [| | | |[|[|t]]| |]; cbn in O; try contradiction O; reflexivity.
Qed.

(** ** C95 Destruction *)
Theorem C95_safe_partial : forall n x, rreachable n plain x -> ~ In VDangling (history x).
Proof. exact safe_lemma. Qed.
Print Assumptions C95_safe_partial.

Theorem C95_returns_partial : forall n x, rreachable n plain x -> In VDestroying (history x) -> exists bound, forall ls x', Forall own_step ls -> rsteps x ls = Some x' ->
  List.length ls <= bound /\ (at_rest x' -> In VGone (history x')).
Proof. exact destroy_lemma. Qed.
Print Assumptions C95_returns_partial.

(** a line requested with stdin_handler().read_one_more_line() is being delivered when the queue of commands is destroyed *)
Theorem C95_dangling_refuted : exists x, rreachable 1 anything x /\ hd_error (history x) = Some VDangling /\ all_idle x.
Proof.
  run [Owner; Extra; Thread; Typed (s "start"); Thread; Destroy; Owner; Thread]. split; [reflexivity|].
  intros [|[|t]] p H; [injection H as <-; reflexivity|discriminate H|discriminate H].
Qed.
Print Assumptions C95_dangling_refuted.

(** ... or is still being read: the destructor does not return until the user ends a line *)
Theorem C95_silence_refuted : exists x, rreachable 1 anything x /\ hd_error (history x) = Some VDestroying /\ all_idle x /\ stuck_until_typed x.
Proof.
  run [Owner; Extra; Thread; Destroy]. split; [reflexivity|]. split; [intros [|[|t]] p H; [injection H as <-; reflexivity|discriminate H|discriminate H]|].
  apply waits_lemma; [reflexivity|]. cbn. intuition discriminate.
Qed.
Print Assumptions C95_silence_refuted.

Example C95_nonvacuous : exists x, rreachable 1 plain x /\ history x = [VGone; VDestroying; VCommand 0 (s "start"); VTyped (s "start"); VBegin; VCall 0].
Proof. run ([Owner] ++ call_by 0 ++ line (s "start") ++ [Run 0; Run 0] ++ [Destroy; Owner; Owner; Owner; Thread; Owner]). reflexivity. Qed.
