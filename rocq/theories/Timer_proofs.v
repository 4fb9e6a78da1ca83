From Coq Require Import ZArith List Bool Lia ZifyBool.
From Verif Require Import Timer_model Timer_spec.
Import ListNotations.
Local Open Scope Z_scope.

Notation run := (ptimer_run Z 0 Z.add (fun a b => b - a)).
Notation elapsed := (ptimer_elapsed Z Z.add (fun a b => b - a)).

Lemma run_snoc born play calls c : run born play (calls ++ [c]) =
  ptimer_call Z 0 Z.add (fun a b => b - a) (run born play calls) c.
Proof. unfold ptimer_run. rewrite fold_left_app. reflexivity. Qed.

Lemma instants_ext a b p q : (forall u, a <= u < b -> p u = q u) -> instants a b p = instants a b q.
Proof.
  intros H. unfold instants. f_equal. f_equal. apply filter_ext_in. intros u Hu.
  apply in_map_iff in Hu as (i & <- & Hi). apply in_seq in Hi. apply H. lia.
Qed.

Lemma instants_split a b c p : a <= b <= c -> instants a c p = instants a b p + instants b c p.
Proof.
  intros H. unfold instants. rewrite <- Nat2Z.inj_add, <- app_length, <- filter_app. do 3 f_equal.
  replace (Z.to_nat (c - a)) with (Z.to_nat (b - a) + Z.to_nat (c - b))%nat by lia.
  rewrite seq_app, map_app. f_equal. cbn [Nat.add].
  generalize (Z.to_nat (c - b)) as n. intros n.
  replace (Z.to_nat (b - a)) with (0 + Z.to_nat (b - a))%nat at 1 by lia.
  generalize 0%nat as k. induction n as [|n IH]; intros k; [reflexivity|]. cbn [seq map]. f_equal; [lia|].
  replace (S (k + Z.to_nat (b - a))) with (S k + Z.to_nat (b - a))%nat by lia. apply IH.
Qed.

Lemma instants_const a b v : a <= b -> instants a b (fun _ => v) = if v then b - a else 0.
Proof.
  intros H. unfold instants. destruct v.
  - assert (E : forall (l : list Z), filter (fun _ => true) l = l) by (induction l; cbn; congruence).
    rewrite E, map_length, seq_length. lia.
  - assert (E : forall (l : list Z), filter (fun _ => false) l = []) by (induction l; cbn; congruence).
    rewrite E. reflexivity.
Qed.

Lemma last_reset_le born : forall newest now, clock_ok born newest now -> last_reset born newest <= now.
Proof.
  induction newest as [|[t c] older IH]; intros now H; cbn in *; [exact H|].
  destruct H as [Ht H]. specialize (IH _ H). destruct c; lia.
Qed.

Lemma plays_at_late b born : forall newest now u, clock_ok born newest now -> now <= u ->
  plays_at b newest u = plays_at b newest now.
Proof.
  induction newest as [|[t c] older IH]; intros now u H Hu; cbn in *; [reflexivity|].
  destruct H as [Ht H]. replace (t <=? u) with true by lia. replace (t <=? now) with true by lia.
  destruct c; try reflexivity. rewrite (IH t u H), (IH t now H) by lia. reflexivity.
Qed.

Lemma timer_inv born b : forall newest now, clock_ok born newest now ->
  playing Z (run born b (rev newest)) = plays_at b newest now /\
  elapsed now (run born b (rev newest)) = instants (last_reset born newest) now (plays_at b newest).
Proof.
  induction newest as [|[t c] older IH]; intros now H.
  - cbn in H. split; [reflexivity|]. cbn [rev ptimer_run fold_left]. unfold ptimer_elapsed, ptimer_new.
    cbn [playing stored start_time last_reset plays_at].
    rewrite instants_const by exact H. destruct b; lia.
  - cbn [rev]. rewrite run_snoc. cbn [clock_ok] in H. destruct H as [Ht H].
    destruct (IH t H) as [Hp He]. set (T := run born b (rev older)) in *.
    assert (Hs : elapsed now T = elapsed t T + if playing Z T then now - t else 0).
    { unfold ptimer_elapsed. destruct (playing Z T); lia. }
    assert (Hlate : forall u, t <= u -> plays_at b older u = playing Z T).
    { intros u Hu. rewrite Hp. apply (plays_at_late b born older t u H Hu). }
    assert (Hbefore : forall u, u < t -> plays_at b ((t, c) :: older) u = plays_at b older u).
    { intros u Hu. cbn [plays_at]. replace (t <=? u) with false by lia. reflexivity. }
    assert (Hafter : forall u, t <= u -> plays_at b ((t, c) :: older) u =
              match c with Play => true | Pause => false | Reset => playing Z T end).
    { intros u Hu. cbn [plays_at]. replace (t <=? u) with true by lia. destruct c; try reflexivity. apply Hlate. exact Hu. }
    rewrite Hafter by exact Ht.
    pose proof (last_reset_le born older t H) as Hr.
    destruct c; unfold ptimer_call; cbn [snd fst last_reset].
    + split; [unfold ptimer_play; destruct (playing Z T) eqn:E; [exact E|reflexivity]|].
      rewrite (instants_split (last_reset born older) t now) by lia.
      rewrite (instants_ext (last_reset born older) t _ (plays_at b older)) by (intros u Hu; apply Hbefore; lia).
      rewrite (instants_ext t now _ (fun _ => true)) by (intros u Hu; apply Hafter; lia).
      rewrite <- He, instants_const by lia. unfold ptimer_play.
      destruct (playing Z T) eqn:E; [lia|]. unfold ptimer_elapsed. rewrite E. cbn. lia.
    + split; [unfold ptimer_pause; destruct (playing Z T) eqn:E; [reflexivity|exact E]|].
      rewrite (instants_split (last_reset born older) t now) by lia.
      rewrite (instants_ext (last_reset born older) t _ (plays_at b older)) by (intros u Hu; apply Hbefore; lia).
      rewrite (instants_ext t now _ (fun _ => false)) by (intros u Hu; apply Hafter; lia).
      rewrite <- He, instants_const by lia. unfold ptimer_pause.
      destruct (playing Z T) eqn:E; [|lia]. unfold ptimer_elapsed. rewrite E. cbn. lia.
    + split; [reflexivity|].
      rewrite (instants_ext t now _ (fun _ => playing Z T)) by (intros u Hu; apply Hafter; lia).
      rewrite instants_const by lia. unfold ptimer_elapsed, ptimer_reset. cbn [playing stored start_time].
      destruct (playing Z T); lia.
Qed.

Lemma timer_lemma : forall born b newest now, clock_ok born newest now ->
  elapsed now (run born b (rev newest)) = instants (last_reset born newest) now (plays_at b newest).
Proof. intros born b newest now H. apply (timer_inv born b newest now H). Qed.

Lemma timer_playing_lemma : forall born b newest now, clock_ok born newest now ->
  playing Z (run born b (rev newest)) = plays_at b newest now.
Proof. intros born b newest now H. apply (timer_inv born b newest now H). Qed.

Section Any.
Variables (D : Type) (zero : D) (add : D -> D -> D) (measure : Z -> Z -> D).
Notation total := (total D zero add measure).

Lemma total_snoc l i : total (l ++ [i]) = add (total l) (measure (fst i) (snd i)).
Proof. unfold total. rewrite fold_left_app. reflexivity. Qed.

Lemma intervals_lemma0 now : forall calls (T : ptimer D) done, stored D T = total done ->
  ptimer_elapsed D add measure now (fold_left (ptimer_call D zero add measure) calls T) =
  total (intervals (if playing D T then Some (start_time D T) else None) calls done now).
Proof.
  induction calls as [|[t c] rest IH]; intros T done HT; cbn [fold_left intervals].
  - unfold ptimer_elapsed. destruct (playing D T); [rewrite total_snoc, HT; reflexivity|rewrite app_nil_r; exact HT].
  - unfold ptimer_call at 2. cbn [snd fst]. destruct c.
    + unfold ptimer_play. destruct (playing D T) eqn:E.
      * rewrite (IH T done HT), E. reflexivity.
      * rewrite (IH _ done); [reflexivity|exact HT].
    + unfold ptimer_pause. destruct (playing D T) eqn:E.
      * rewrite (IH _ (done ++ [(start_time D T, t)])); [reflexivity|]. rewrite total_snoc, <- HT. reflexivity.
      * rewrite (IH T done HT), E. reflexivity.
    + unfold ptimer_reset. rewrite (IH _ []); [|reflexivity]. cbn [playing start_time]. destruct (playing D T); reflexivity.
Qed.

Lemma intervals_lemma : forall born play calls now,
  ptimer_elapsed D add measure now (ptimer_run D zero add measure born play calls) =
  total (intervals (if play then Some born else None) calls [] now).
Proof. intros. unfold ptimer_run. rewrite (intervals_lemma0 now calls _ []); reflexivity. Qed.

End Any.

Lemma backwards_lemma : exists calls now, elapsed now (run 10 true calls) < 0.
Proof. exists [], 5. reflexivity. Qed.

Lemma elapsed_ms_lemma : forall ns, 0 <= ns < 2 ^ 32 * 1000000 -> elapsed_ms ns = Some (ns / 1000000).
Proof.
  intros ns H. unfold elapsed_ms. rewrite Z.quot_div_nonneg by lia.
  assert (0 <= ns / 1000000) by (apply Z.div_pos; lia).
  assert (ns / 1000000 < 2 ^ 32) by (apply Z.div_lt_upper_bound; lia).
  replace (_ && _) with true by lia. reflexivity.
Qed.

Lemma elapsed_ms_long : exists ns, 0 <= ns /\ elapsed_ms ns = None.
Proof. exists (2 ^ 32 * 1000000). split; [lia|reflexivity]. Qed.
