(** Properties of log event handlers. *)
From Verif Require Import LogEvent_model LogEvent_spec LogEvent_proofs.

Definition note_of (k : kind) (n : nat) : entry := {| level := k; text := n |}.
Definition runs (n : nat) : list llabel := repeat Run n.
(** the thread of the log takes an entry and goes on for [n] steps *)
Definition take (n : nat) : list llabel := Take :: repeat Consume n.

Lemma run_reachable cl v ls x : lsteps cl (linit v) ls = Some x -> lreachable cl v always x.
Proof. intro E. eapply reach_steps; [apply lr_init|intros; exact I|exact E]. Qed.
Lemma run_alone cl v ls x : Forall (fun l => match l with Other _ => False | _ => True end) ls -> lsteps cl (linit v) ls = Some x -> lreachable cl v alone x.
Proof. intros F E. eapply reach_steps; [apply lr_init| |exact E]. intros y l H. rewrite Forall_forall in F. exact (F _ H). Qed.

(** ** C58: nothing is stored in a handler that was destroyed *)
(** the destructor destroys the stored entries before it closes the connection with the log *)
Theorem C58_refuted : forall cl, exists x, lreachable cl Info always x /\ In VDangling (history x).
Proof.
  intro cl. pose (ls := match cl with PlainHandler => runs 6 ++ [Log (note_of Error 1); Destroy] ++ runs 4 ++ take 3
                                   | SevereHandler _ => runs 8 ++ [Log (note_of Error 1); Destroy] ++ runs 5 ++ take 3 end).
  destruct (lsteps cl (linit Info) ls) as [x|] eqn:E; [|destruct cl as [|[]]; vm_compute in E; discriminate E].
  exists x. split; [exact (run_reachable _ _ _ _ E)|]. destruct cl as [|[]]; vm_compute in E; injection E as <-; left; reflexivity.
Qed.
Print Assumptions C58_refuted.

(** ... it happens only in between *)
Theorem C58_window : forall cl v allowed x older, lreachable cl v allowed x -> moment x VDangling older -> In VStorageGone older /\ ~ In VReleased older.
Proof. exact window_lemma. Qed.
Print Assumptions C58_window.

(** after the connection was closed the log touches nothing of the handler *)
Theorem C58_after : forall cl v allowed x e older, lreachable cl v allowed x -> moment x e older -> touches e -> ~ In VReleased older.
Proof. exact touched_lemma. Qed.
Print Assumptions C58_after.
Theorem C58_after_inside : forall cl v allowed x, lreachable cl v allowed x -> In VReleased (history x) -> guarding (logger x) = false.
Proof. exact gone_lemma. Qed.
Print Assumptions C58_after_inside.

Theorem C58_partial : forall cl v x, lreachable cl v settled x -> ~ In VDangling (history x) /\ ~ In VIndeterminate (history x).
Proof. exact settled_safe. Qed.
Print Assumptions C58_partial.

(** a handler that is constructed, is given entries and is destroyed *)
Definition a_life : list llabel :=
  runs 8 ++ [Log (note_of Error 1); Other Info; Log (note_of Info 3); Log (note_of Warning 2)] ++ take 6 ++ take 2 ++ take 6 ++ [Destroy] ++ runs 7.

(** a run in which entries are given to complete handlers only *)
Definition settledb (x : lstate) (l : llabel) : bool :=
  match l with
  | Take => has VConstructed (history x) && negb (has VDestroying (history x))
  | Destroy => match logger x with LIdle => true | _ => false end
  | _ => true
  end.
Fixpoint settled_steps (cl : class) (x : lstate) (ls : list llabel) : option lstate :=
  match ls with
  | [] => Some x
  | l :: ls' => if settledb x l then match lstep cl x l with Some x' => settled_steps cl x' ls' | None => None end else None
  end.
Lemma run_settled cl v ls : forall x x', lreachable cl v settled x -> settled_steps cl x ls = Some x' -> lreachable cl v settled x'.
Proof.
  induction ls as [|l ls IH]; intros x x' R E; cbn in E; [injection E as <-; exact R|].
  destruct (settledb x l) eqn:S; [|discriminate E]. destruct (lstep cl x l) as [y|] eqn:E1; [|discriminate E].
  refine (IH _ _ (lr_step _ _ _ _ _ _ R _ E1) E). destruct l; try exact I; cbn in *.
  - apply andb_true_iff in S. destruct S as [S1 S2]. split; [apply (has_in VConstructed _ eq_refl); exact S1|].
    intro H. apply (has_in VDestroying _ eq_refl) in H. rewrite H in S2. discriminate S2.
  - destruct (logger x); try discriminate S. reflexivity.
Qed.
Example C58_nonvacuous : exists x, lreachable (SevereHandler Warning) Error settled x /\ In VDestroyed (history x) /\
  taken (history x) = [note_of Error 1; note_of Info 3; note_of Warning 2] /\
  stored (history x) = [note_of Error 1; note_of Warning 2] /\ called (history x) = stored (history x) /\ count x = 2.
Proof.
  destruct (settled_steps (SevereHandler Warning) (linit Error) a_life) as [x|] eqn:E; [|vm_compute in E; discriminate E].
  exists x. split; [eapply run_settled; [apply lr_init|exact E]|]. vm_compute in E. injection E as <-. vm_compute. tauto.
Qed.

(** ** C83: a severe handler is called only for entries as severe as its threshold *)
Theorem C83_threshold_partial : forall cl v x e, lreachable cl v settled x -> In (VCalled e) (history x) \/ In (VStored e) (history x) -> meant cl e = true.
Proof. exact settled_meant. Qed.
Print Assumptions C83_threshold_partial.

(** entries that are given to the handler during its construction or its destruction are not compared with the threshold *)
Theorem C83_construction_refuted : exists x, lreachable (SevereHandler Error) Info always x /\ In (VCalled (note_of Info 1)) (history x) /\ ~ In VConstructed (history x).
Proof.
  destruct (lsteps (SevereHandler Error) (linit Info) (Log (note_of Info 1) :: runs 5 ++ take 5)) as [x|] eqn:E; [|vm_compute in E; discriminate E].
  exists x. split; [exact (run_reachable _ _ _ _ E)|]. vm_compute in E. injection E as <-. split; [cbn; tauto|]. vm_compute. intuition discriminate.
Qed.
Print Assumptions C83_construction_refuted.
Theorem C83_destruction_refuted : exists x, lreachable (SevereHandler Error) Info always x /\ In (VCalled (note_of Info 1)) (history x) /\ In VConstructed (history x).
Proof.
  destruct (lsteps (SevereHandler Error) (linit Info) (runs 8 ++ [Log (note_of Info 1); Destroy; Run] ++ take 5)) as [x|] eqn:E; [|vm_compute in E; discriminate E].
  exists x. split; [exact (run_reachable _ _ _ _ E)|]. vm_compute in E. injection E as <-. split; cbn; tauto.
Qed.
Print Assumptions C83_destruction_refuted.
(** the threshold may be read before it is initialised *)
Theorem C83_indeterminate_refuted : forall k, exists x, lreachable (SevereHandler k) Info always x /\ In VIndeterminate (history x).
Proof.
  intro k. destruct (lsteps (SevereHandler k) (linit Info) (Log (note_of Error 1) :: runs 6 ++ take 2)) as [x|] eqn:E; [|destruct k; vm_compute in E; discriminate E].
  exists x. split; [exact (run_reachable _ _ _ _ E)|]. destruct k; vm_compute in E; injection E as <-; left; reflexivity.
Qed.
Print Assumptions C83_indeterminate_refuted.
Theorem C83_indeterminate_window : forall cl v allowed x older, lreachable cl v allowed x -> moment x VIndeterminate older -> ~ In VConstructed older.
Proof. exact early_lemma. Qed.
Print Assumptions C83_indeterminate_window.

(** ** C84: each entry once, in order, and only while set *)
Theorem C84_order : forall cl v allowed x, lreachable cl v allowed x ->
  subsequence (called (history x)) (stored (history x)) /\ (storage x = true -> entries x = stored (history x)) /\ count x = returns (history x).
Proof. exact order_lemma. Qed.
Print Assumptions C84_order.

Theorem C84_each_partial : forall cl v x, lreachable cl v settled x -> logger x = LIdle ->
  stored (history x) = filter (meant cl) (taken (history x)) /\ (~ In VUnset (history x) -> called (history x) = filter (meant cl) (taken (history x))).
Proof. exact settled_each. Qed.
Print Assumptions C84_each_partial.

(** an entry taken while the handler is being constructed is stored although it is not severe enough *)
Theorem C84_construction_refuted : exists x, lreachable (SevereHandler Error) Info always x /\ logger x = LIdle /\ taken (history x) = [note_of Info 1] /\ stored (history x) = [note_of Info 1] /\ filter (meant (SevereHandler Error)) (taken (history x)) = [].
Proof.
  destruct (lsteps (SevereHandler Error) (linit Info) (Log (note_of Info 1) :: runs 5 ++ take 6)) as [x|] eqn:E; [|vm_compute in E; discriminate E].
  exists x. split; [exact (run_reachable _ _ _ _ E)|]. vm_compute in E. injection E as <-. repeat split; reflexivity.
Qed.
Print Assumptions C84_construction_refuted.

Theorem C84_only_set : forall cl v allowed x n older, lreachable cl v allowed x -> moment x (VCalled n) older -> last_set older = true.
Proof. exact only_set_lemma. Qed.
Print Assumptions C84_only_set.

Theorem C84_unset : forall cl v allowed x, lreachable cl v allowed x -> last_set (history x) = false -> ~ running x.
Proof. exact unset_lemma. Qed.
Print Assumptions C84_unset.

(** the third entry arrives while no callback is set *)
Example C84_nonvacuous : exists x, lreachable (SevereHandler Warning) Error settled x /\ logger x = LIdle /\ storage x = true /\
  taken (history x) = [note_of Error 1; note_of Info 3; note_of Warning 2; note_of Error 4] /\
  stored (history x) = [note_of Error 1; note_of Warning 2; note_of Error 4] /\ called (history x) = [note_of Error 1; note_of Warning 2] /\ count x = 2 /\ last_set (history x) = false.
Proof.
  destruct (settled_steps (SevereHandler Warning) (linit Error) (runs 8 ++ [Log (note_of Error 1); Other Info; Log (note_of Info 3); Log (note_of Warning 2)] ++ take 6 ++ take 2 ++ take 6 ++ [UnsetCallback; Log (note_of Error 4)] ++ runs 3 ++ take 5)) as [x|] eqn:E; [|vm_compute in E; discriminate E].
  exists x. split; [eapply run_settled; [apply lr_init|exact E]|]. vm_compute in E. injection E as <-. vm_compute. tauto.
Qed.

(** ** C85: construction, destruction, set_callback and unset_callback return *)
Theorem C85_returns : forall cl v allowed x, lreachable cl v allowed x -> exists bound, forall ls x', Forall own_step ls -> lsteps cl x ls = Some x' ->
  List.length ls <= bound /\ ((forall l, own_step l -> lstep cl x' l = None) -> ~ inside x').
Proof. exact returns_lemma. Qed.
Print Assumptions C85_returns.

(** the destructor waits for the callback *)
Example C85_nonvacuous : exists x, lreachable (SevereHandler Warning) Info always x /\ inside x /\ running x /\ lstep (SevereHandler Warning) x Run = None.
Proof.
  destruct (lsteps (SevereHandler Warning) (linit Info) (runs 8 ++ [Log (note_of Error 1)] ++ take 5 ++ [Destroy] ++ runs 2)) as [x|] eqn:E; [|vm_compute in E; discriminate E].
  exists x. split; [exact (run_reachable _ _ _ _ E)|]. vm_compute in E. injection E as <-. split; [split; discriminate|]. split; [eexists; reflexivity|reflexivity].
Qed.

(** ** C86: entries as severe as the threshold reach the handler *)
Theorem C86_reached_partial : forall cl v x e older k, lreachable cl v alone x -> moment x (VHidden e) older -> In VConstructed older -> cl = SevereHandler k -> kle (level e) k = false.
Proof. exact loud_lemma. Qed.
Print Assumptions C86_reached_partial.

(** another handler with a lower threshold hides entries from the first one *)
Theorem C86_other_refuted : exists x older, lreachable (SevereHandler Info) Error always x /\ moment x (VHidden (note_of Info 1)) older /\ In VConstructed older /\ last_set older = true.
Proof.
  destruct (lsteps (SevereHandler Info) (linit Error) (runs 8 ++ [Other Warning; Log (note_of Info 1)])) as [x|] eqn:E; [|vm_compute in E; discriminate E].
  exists x, (tl (history x)). split; [exact (run_reachable _ _ _ _ E)|]. vm_compute in E. injection E as <-. split; [exists []; reflexivity|]. split; [cbn; tauto|reflexivity].
Qed.
Print Assumptions C86_other_refuted.

(** the construction of a handler hides entries that were logged before *)
Theorem C86_construction_refuted : exists x older, lreachable (SevereHandler Warning) Info alone x /\ moment x (VHidden (note_of Info 2)) older /\ In (VQueued (note_of Info 1)) older.
Proof.
  destruct (lsteps (SevereHandler Warning) (linit Info) (Log (note_of Info 1) :: runs 8 ++ [Log (note_of Info 2)])) as [x|] eqn:E; [|vm_compute in E; discriminate E].
  exists x, (tl (history x)). split; [eapply run_alone; [|exact E]; repeat (apply Forall_cons; [exact I|]); apply Forall_nil|]. vm_compute in E. injection E as <-. split; [exists []; reflexivity|cbn; tauto].
Qed.
Print Assumptions C86_construction_refuted.

Example C86_nonvacuous : exists x older, lreachable (SevereHandler Warning) Error alone x /\ moment x (VHidden (note_of Info 2)) older /\ In VConstructed older /\ In (VQueued (note_of Warning 1)) older.
Proof.
  destruct (lsteps (SevereHandler Warning) (linit Error) (runs 8 ++ [Log (note_of Warning 1); Log (note_of Info 2)])) as [x|] eqn:E; [|vm_compute in E; discriminate E].
  exists x, (tl (history x)). split; [eapply run_alone; [|exact E]; repeat (apply Forall_cons; [exact I|]); apply Forall_nil|]. vm_compute in E. injection E as <-. split; [exists []; reflexivity|]. split; cbn; tauto.
Qed.
