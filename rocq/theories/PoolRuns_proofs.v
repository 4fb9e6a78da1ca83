(** Proofs of C152 and C153: executions in which the threads only go on with what they are doing end. *)
From Coq Require Import NArith List Permutation Bool Arith Lia ZifyBool ZifyNat ZifyN.
From Verif Require Import Wait_spec Wait_proofs Consumer_model Consumer_spec Consumer_proofs Pool_model Pool_spec Pool_proofs PoolStop_proofs PoolTask_spec PoolTask_proofs PoolDown_spec PoolDown_proofs.
Import ListNotations.
Notation hreach v en n := (reachable (c_above 0) (c_reached 0) c_incr c_decr counter_client (init v en n)).

(** ** Sums over threads *)
Fixpoint total (f : nat -> nat) (n : nat) : nat := match n with 0 => 0 | S n' => f n' + total f n' end.
Lemma total_le f f' c n : (forall t, t < n -> f' t <= f t + c) -> total f' n <= total f n + c * n.
Proof. induction n as [|n IH]; intro H; cbn [total]; [lia|]. pose proof (H n (Nat.lt_succ_diag_r n)). assert (total f' n <= total f n + c * n) by (apply IH; intros t Ht; apply H; lia). lia. Qed.
Lemma total_one f f' c v n : v < n -> (forall t, t < n -> t <> v -> f' t <= f t + c) -> total f' n + f v <= total f n + f' v + c * n.
Proof.
  induction n as [|n IH]; intros L H; [lia|]. cbn [total]. destruct (Nat.eq_dec n v) as [->|D].
  - assert (total f' v <= total f v + c * v) by (apply total_le; intros t Ht; apply H; lia). lia.
  - assert (total f' n + f v <= total f n + f' v + c * n) by (apply IH; [lia|intros t Ht; apply H; lia]). pose proof (H n (Nat.lt_succ_diag_r n) D). lia.
Qed.
Lemma total_same f f' n : (forall t, t < n -> f' t = f t) -> total f' n = total f n.
Proof. induction n as [|n IH]; intro H; cbn [total]; [reflexivity|]. rewrite (H n) by lia. rewrite IH; [reflexivity|]. intros t Ht. apply H. lia. Qed.

(** ** How many steps a thread can make *)
Definition wrk (b cm : nat) (p : pc N) : nat :=
  match p with
  | WSleep _ _ => 4 | WTest _ _ => 5 | WFinal _ _ => 4 | WWoken _ _ _ => 6 | WCheck _ => 6 | WLock _ => 7 | WExit _ _ _ => 3 | WReason _ _ _ => 2
  | WRet _ ConditionMet => cm | WRet _ _ => 1 | GLock => 1 | KLock _ => 2 * b + 4 | DTest _ => 2 * b + 3 | DStore _ => 2 * b + 2 | DNotify _ => 2 * b + 1 | _ => 0
  end.
Definition unit_cost (b : nat) : nat := 2 * b + 20.
Definition krk (b : nat) (k : stage nat) (p : pc N) : nat :=
  match k with
  | SIdle => 0 | SPush _ => unit_cost b + 2 * b + 2 | SIncrement => unit_cost b + 2 * b + 1 | SWait => wrk b 17 p | SPop => 16 | SEmpty => 15 | SSwap => 14 | SEmpty2 => 13 | SFront => 12 | SDrop _ => 11
  | SOther => wrk b 1 p
  end.
Definition grk (b : nat) (g : pstage) (k : stage nat) (p : pc N) : nat :=
  match g with
  | PUnborn => 9 | PIdle => 0 | PEmit _ => unit_cost b + 2 * b + 3 | PSlot _ => 1 | PEnable => 2 | PSpawn _ => 1 | PDisable => 3 * b + 20 | PQueueOff => b + 2 + krk b k p | PJoin us => 1 + length us
  | PLoop => 8 | PTask _ => 10 | PBody _ => 9 | PEnded => 0 | PProduce _ | PWaitTasks | PConsume => krk b k p
  end.
Definition trk (s : pstate) (t : nat) : nat :=
  match nth_error (pstages s) t, nth_error (stages (queue s)) t, nth_error (threads (handler (queue s))) t with Some g, Some k, Some p => grk (length (pstages s)) g k p | _, _, _ => 0 end.
Definition potential (s : pstate) : nat := unit_cost (length (pstages s)) * N.to_nat (value (handler (queue s))) + total (trk s) (length (pstages s)).

Lemma woken_wrk b cm p q : woken N p q -> wrk b cm q <= wrk b cm p + 2.
Proof. intros [->|(c & H & ->)]; [lia|]. destruct p; try discriminate. cbn in *. rewrite H. cbn. lia. Qed.
Lemma woken_grk b g k p q : woken N p q -> grk b g k q <= grk b g k p + 2.
Proof. intro W. destruct g; cbn [grk]; try lia; destruct k; cbn [krk]; try lia; pose proof (woken_wrk b 17 _ _ W); pose proof (woken_wrk b 1 _ _ W); lia. Qed.

(** ** Steps of the counter *)
Definition quiet (h h' : state N) (v : nat) : Prop := forall u, u <> v -> nth_error (threads h') u = nth_error (threads h) u.
Definition noisy (h h' : state N) (v : nat) : Prop := forall u q, u <> v -> nth_error (threads h) u = Some q -> exists q', nth_error (threads h') u = Some q' /\ woken N q q'.
Inductive hmove (b : nat) (h h' : state N) (v : nat) (p p' : pc N) : Prop :=
| hm_quiet : value h' = value h -> quiet h h' v -> wrk b 1 p' < wrk b 1 p ->
    (forall w, wait_of N p = Some w -> w_take w = true -> (p' <> Idle /\ wrk b 17 p' < wrk b 17 p) \/ (exists r, p = WRet w r /\ p' = Idle /\ log h' = EvReturn v w r :: log h)) -> hmove b h h' v p p'
| hm_incr : p = ILock -> p' = Idle -> N.to_nat (value h') <= N.to_nat (value h) + 1 -> noisy h h' v -> hmove b h h' v p p'
| hm_off k : p = DNotify k -> p' = Idle -> value h' = value h -> noisy h h' v -> hmove b h h' v p p'
| hm_decr w dl fin : p = WReason w dl fin -> p' = WRet w ConditionMet -> N.to_nat (value h') + 1 <= N.to_nat (value h) -> noisy h h' v -> hmove b h h' v p p'.

Lemma run_rank b va en n h v p pick h' : hreach va en n h -> nth_error (threads h) v = Some p -> ctrl_ok p -> hstep h (Run v pick) = Some h' ->
  exists p', nth_error (threads h') v = Some p' /\ hmove b h h' v p p'.
Proof.
  intros R Hp Ck E. pose proof E as E0. destruct (inv_ok _ _ _ (reachable_inv _ _ _ _ _ _ _ _ _ _ R) v p Hp) as (_ & _ & Loc). pose proof (ct_pc _ _ _ _ (reachable_counter _ _ _ _ _ _ _ _ _ R) v p Hp) as Cp.
  assert (Ns : noisy h h' v).
  { intros u q D Hq. destruct (hrun _ _ _ _ _ _ _ R E0) as (_ & p0 & p1 & _ & (_ & _ & _ & Hn) & _ & _). apply Hn. rewrite nth_upd_other by congruence. exact Hq. }
  assert (Qt : forall p' h1, threads h1 = upd (threads h) v p' -> quiet h h1 v) by (intros p' h1 Ht u D; rewrite Ht, nth_upd_other by congruence; reflexivity).
  clear E0. unfold hstep, c_step in E. cbn [step] in E. rewrite Hp in E.
  destruct p; cbn [run] in E; try discriminate; try contradiction.
  - destruct (free (mutex h)); [|discriminate]. injection E as <-. eexists. split; [eapply nth_upd_same; exact Hp|]. apply hm_quiet; [reflexivity|eapply Qt; reflexivity|cbn; lia|]. intros w0 _ _. left. split; [discriminate|cbn; lia].
  - destruct (negb (enabled h)); injection E as <-; (eexists; split; [eapply nth_upd_same; exact Hp|]; apply hm_quiet; [reflexivity|eapply Qt; reflexivity|cbn; lia|]; intros w0 _ _; left; split; [discriminate|cbn; lia]).
  - destruct (condition _ _); injection E as <-; (eexists; split; [eapply nth_upd_same; exact Hp|]; apply hm_quiet; [reflexivity|eapply Qt; reflexivity|cbn; lia|]; intros w0 _ _; left; split; [discriminate|cbn; lia]).
  - destruct (free (mutex h)); [|discriminate]. injection E as <-. eexists. split; [eapply nth_upd_same; exact Hp|]. apply hm_quiet; [reflexivity|eapply Qt; reflexivity|destruct timedout; cbn; lia|]. intros w0 _ _. left. split; [destruct timedout; discriminate|destruct timedout; cbn; lia].
  - injection E as <-. eexists. split; [eapply nth_upd_same; exact Hp|]. apply hm_quiet; [reflexivity|eapply Qt; reflexivity|cbn; lia|]. intros w0 _ _. left. split; [discriminate|cbn; lia].
  - injection E as <-. eexists. split; [eapply nth_upd_same; exact Hp|]. apply hm_quiet; [reflexivity|eapply Qt; reflexivity|cbn; lia|]. intros w0 _ _. left. split; [discriminate|cbn; lia].
  - (* the reason is decided *)
    assert (Plain : forall r, h' = set_pc v (WRet w r) h -> (r = ConditionMet -> w_take w = false) -> exists p', nth_error (threads h') v = Some p' /\ hmove b h h' v (WReason w dl finished) p').
    { intros r -> Hr. eexists. split; [eapply nth_upd_same; exact Hp|]. apply hm_quiet; [reflexivity|eapply Qt; reflexivity|destruct r; cbn; lia|]. intros w0 X Ht. injection X as <-. left. split; [discriminate|]. destruct r; [cbn; lia|cbn; lia|]. rewrite (Hr eq_refl) in Ht. discriminate. }
    destruct (enabled h) eqn:En; cbn [negb] in E; [|injection E as <-; apply (Plain Disabled); [reflexivity|discriminate]].
    destruct finished; [|injection E as <-; apply (Plain Timeout); [reflexivity|discriminate]].
    destruct (w_take w) eqn:Htk; [|injection E as <-; apply (Plain ConditionMet); [reflexivity|reflexivity]].
    clear Plain. exists (WRet w ConditionMet). destruct Loc as (_ & Cd & _). unfold counter_pc in Cp. cbn [wait_of] in Cp. rewrite Htk in Cp. destruct Cp as [_ Cpr]. unfold condition in Cd. rewrite En, Cpr in Cd. cbn [negb orb] in Cd. unfold c_above in Cd.
    assert (V : N.to_nat (c_decr (value h)) + 1 <= N.to_nat (value h)).
    { unfold c_decr. assert (Hx : (value h + 2 ^ 32 - 1 = (value h - 1) + 1 * 2 ^ 32)%N) by lia. rewrite Hx, N.mod_add by discriminate. pose proof (N.mod_le (value h - 1) (2 ^ 32)%N). lia. }
    assert (Hv : nth_error (threads h') v = Some (WRet w ConditionMet) /\ value h' = c_decr (value h)).
    { unfold decrease in E. cbv zeta in E. destruct (c_above 0 _).
      - apply notified_one in E as (l & -> & (_ & _ & _ & Hn) & _). split; [|reflexivity]. cbn [threads set_threads]. destruct (Hn v (WRet w ConditionMet)) as (q & Hq & W); [eapply nth_upd_same; exact Hp|]. apply woken_awake in W; [|discriminate]. now subst q.
      - destruct (c_reached 0 _); injection E as <-; (split; [|reflexivity]); [|eapply nth_upd_same; exact Hp]. cbn [notify_all threads set_threads]. rewrite nth_error_map. cbn [threads set_val set_pc]. rewrite (nth_upd_same _ _ _ _ Hp). reflexivity. }
    destruct Hv as [H1 H2]. split; [exact H1|]. eapply hm_decr; [reflexivity|reflexivity|rewrite H2; exact V|exact Ns].
  - injection E as <-. eexists. split; [eapply nth_upd_same; exact Hp|]. apply hm_quiet; [reflexivity|eapply Qt; reflexivity|destruct r; cbn; lia|]. intros w0 X _. injection X as <-. right. exists r. repeat split.
  - destruct (free (mutex h)); [|discriminate]. exists Idle. cbv zeta in E.
    assert (Hv : nth_error (threads h') v = Some Idle /\ value h' = c_incr (value h)).
    { destruct (c_above 0 _).
      - apply notified_one in E as (l & -> & (_ & _ & _ & Hn) & _). split; [|reflexivity]. cbn [threads set_threads]. destruct (Hn v Idle) as (q & Hq & W); [eapply nth_upd_same; exact Hp|]. apply woken_awake in W; [|discriminate]. now subst q.
      - injection E as <-. split; [eapply nth_upd_same; exact Hp|reflexivity]. }
    destruct Hv as [H1 H2]. split; [exact H1|]. apply hm_incr; [reflexivity|reflexivity| |exact Ns]. rewrite H2. unfold c_incr. pose proof (N.mod_le (value h + 1) (2 ^ 32)%N). lia.
  - destruct (free (mutex h)); [|discriminate]. injection E as <-. eexists. split; [eapply nth_upd_same; exact Hp|]. apply hm_quiet; [reflexivity|eapply Qt; reflexivity|cbn; lia|]. discriminate.
  - destruct (free (status h)); [|discriminate]. injection E as <-. cbn in Ck. subst k. eexists. split; [eapply nth_upd_same; exact Hp|]. apply hm_quiet; [reflexivity|eapply Qt; reflexivity|cbn; lia|]. discriminate.
  - cbn in Ck. subst k. destruct (enabled h); injection E as <-; (eexists; split; [eapply nth_upd_same; exact Hp|]; apply hm_quiet; [reflexivity|eapply Qt; reflexivity|cbn; lia|discriminate]).
  - destruct (free (mutex h)); [|discriminate]. injection E as <-. eexists. split; [eapply nth_upd_same; exact Hp|]. apply hm_quiet; [reflexivity|eapply Qt; reflexivity|cbn; lia|]. discriminate.
  - cbn in Ck. subst k. injection E as <-. exists Idle. split.
    + cbn [notify_all threads set_threads]. rewrite nth_error_map. cbn [after_disable finish emit set_pc set_status threads]. rewrite (nth_upd_same _ _ _ _ Hp). reflexivity.
    + eapply hm_off; [reflexivity|reflexivity|reflexivity|exact Ns].
Qed.

(** ** The list of threads of the pool *)
Lemma threads_list s l s' : pstep s l = Some s' -> pool_threads s' = pool_threads s \/ pool_threads s' = [] \/ exists u, pool_threads s' = pool_threads s ++ [u] /\ nth_error (pstages s) u = Some PUnborn.
Proof.
  intros E.
  assert (C : forall t c g s1, pool_threads s1 = pool_threads s -> queue_call t c g s1 = Some s' -> pool_threads s' = pool_threads s).
  { intros t c g s1 H1 E1. unfold queue_call in E1. destruct (cstep _ _) as [q|]; [|discriminate]. injection E1 as <-. exact H1. }
  assert (Q : forall t pick g, in_queue_step t pick g s = Some s' -> pool_threads s' = pool_threads s).
  { intros t pick g E1. unfold in_queue_step in E1. destruct (nth_error _ t) as [k|]; [|discriminate]. destruct (cstep _ _) as [q|]; [|discriminate].
    assert (X : pool_threads (queue_returned t g (set_queue q s)) = pool_threads s).
    { destruct g; cbn [queue_returned]; try reflexivity; [destruct (log _) as [|[] ?]; reflexivity|destruct (results _) as [|[? ?|? []|?|?] ?]; reflexivity]. }
    destruct (nth_error (stages q) t) as [[]|]; injection E1 as <-; try reflexivity. exact X. }
  destruct l as [t c|t pick|t| |t|t d]; cbn [pstep] in E.
  - left. destruct (nth_error (pstages s) t) as [g|]; [|discriminate]. destruct g; try discriminate. destruct c; cbn [pstart] in E; try (injection E as <-; reflexivity). exact (C _ _ _ s eq_refl E).
  - destruct (nth_error (pstages s) t) as [g|] eqn:Hg; [|discriminate]. destruct g as [| |id|id|id| |k| | |us| | | |id|id|]; cbn [prun] in E; try discriminate; try (left; exact (Q _ _ _ E)).
    + left. destruct (free (slots_mutex s)); [|discriminate]. destruct (registered id s); [exact (C _ _ _ (set_slots_mutex (Some t) s) eq_refl E)|injection E as <-; reflexivity].
    + left. destruct (free (slots_mutex s)); [|discriminate]. destruct (registered id s); injection E as <-; reflexivity.
    + left. destruct (pool_enabled s); injection E as <-; reflexivity.
    + destruct k as [|k]; [injection E as <-; left; reflexivity|]. destruct (nth_error (pstages s) pick) as [g|] eqn:Hp; [|discriminate]. destruct g; try discriminate. injection E as <-. right. right. exists pick. split; [reflexivity|exact Hp].
    + left. destruct (pool_enabled s); [exact (C _ _ _ (set_pool_enabled false s) eq_refl E)|injection E as <-; reflexivity].
    + destruct us as [|w us]; [injection E as <-; right; left; reflexivity|]. left. destruct (nth_error (pstages s) w) as [g|]; [|discriminate]. destruct g; try discriminate. injection E as <-. reflexivity.
    + left. exact (C _ _ _ s eq_refl E).
    + left. destruct (free (slots_mutex s)); [|discriminate]. destruct (registered id s); injection E as <-; reflexivity.
    + left. injection E as <-. reflexivity.
  - left. destruct (cstep _ _) as [q|]; [|discriminate]. injection E as <-. reflexivity.
  - left. destruct (cstep _ _) as [q|]; [|discriminate]. injection E as <-. reflexivity.
  - left. destruct (cstep _ _) as [q|]; [|discriminate]. injection E as <-. reflexivity.
  - left. destruct (nth_error (pstages s) t) as [g|]; [|discriminate]. destruct g; try discriminate. injection E as <-. reflexivity.
Qed.
Lemma threads_distinct n m s : preachable any_label (pinit n m) s -> NoDup (pool_threads s).
Proof.
  intros R. induction R as [|s l s' R IH A E]; [constructor|]. destruct (threads_list _ _ _ E) as [->|[->|(u & -> & Hu)]]; [exact IH|constructor|].
  apply (Permutation_NoDup (Permutation_cons_append _ u)). constructor; [|exact IH]. intro Hx. destruct (dn_mine _ (preachable_down _ _ _ R) u Hx) as (g & Hg & M). rewrite Hu in Hg. injection Hg as <-. discriminate.
Qed.
Lemma threads_few n m s : preachable any_label (pinit n m) s -> length (pool_threads s) <= length (pstages s).
Proof.
  intros R. rewrite <- (seq_length (length (pstages s)) 0). apply NoDup_incl_length; [exact (threads_distinct _ _ _ R)|]. intros u Hu. destruct (dn_mine _ (preachable_down _ _ _ R) u Hu) as (g & Hg & _). apply in_seq. split; [lia|]. cbn. apply nth_error_Some. congruence.
Qed.

(** ** Each step of a thread makes the potential smaller *)
Lemma lift_idle n m s v g k pick h' s' : PInv n m s -> nth_error (pstages s) v = Some g -> nth_error (stages (queue s)) v = Some k -> counting k = true ->
  hstep (handler (queue s)) (Run v pick) = Some h' -> nth_error (threads h') v = Some Idle -> pstep s (PRun v pick) = Some s' ->
  match g with PProduce _ | PWaitTasks => nth_error (pstages s') v = Some PIdle | _ => True end.
Proof.
  intros P Hg Hk Hc Eh Hi E. pose proof (pi_tie _ _ _ P _ _ _ Hg Hk) as T. cbn [pstep] in E. rewrite Hg in E. destruct g; try exact I; cbn [prun] in E; unfold in_queue_step in E; rewrite Hk in E; cbn in T.
  - destruct T as [-> | ->]; [discriminate|]. cbn [cstep] in E. rewrite Hk, Eh, Hi in E. cbn [returned] in E. revert E. cf. rewrite (nth_upd_same _ _ _ _ Hk). cbn [queue_returned]. intro E. injection E as <-. pf. eapply nth_upd_same. exact Hg.
  - subst k. cbn [cstep] in E. rewrite Hk, Eh, Hi in E. cbn [returned] in E. revert E. cf. rewrite (nth_upd_same _ _ _ _ Hk). cbn [queue_returned]. pf. cf. destruct (log h') as [|[? ? ?|? ?|? ?] ?]; intro E; injection E as <-; pf; eapply nth_upd_same; exact Hg.
Qed.
Lemma pstep_length s l s' : pstep s l = Some s' -> length (pstages s') = length (pstages s).
Proof.
  intros E. destruct (pstep_shape _ _ _ E) as [(H1 & _ & _)|[(u & g0 & g' & evs & B & Ht & Hs & _ & Hh)|(u & w & k & B & Ht & Hw & Hs & _ & _)]]; [now rewrite H1|rewrite Hs; apply upd_length|rewrite Hs, !upd_length; reflexivity].
Qed.
Lemma drop_one s s' v c : length (pstages s') = length (pstages s) -> v < length (pstages s) -> (forall t, t < length (pstages s) -> t <> v -> trk s' t <= trk s t + c) ->
  unit_cost (length (pstages s)) * N.to_nat (value (handler (queue s'))) + trk s' v + c * length (pstages s) < unit_cost (length (pstages s)) * N.to_nat (value (handler (queue s))) + trk s v -> potential s' < potential s.
Proof. intros L Hv H D. unfold potential. rewrite L. pose proof (total_one (trk s) (trk s') c v _ Hv H). lia. Qed.

Lemma run_drops n m s v pick s' : preachable any_label (pinit n m) s -> pstep s (PRun v pick) = Some s' -> potential s' < potential s.
Proof.
  intros R E. destruct (preachable_qi _ _ _ _ R) as [P Q]. pose proof (creachable_cinv _ _ _ _ _ (pi_queue _ _ _ P)) as C. pose proof (ci_handler _ _ _ _ _ C) as Rh. pose proof (pstep_length _ _ _ E) as Len.
  pose proof E as E0. cbn [pstep] in E. destruct (nth_error (pstages s) v) as [g|] eqn:Hg; [|discriminate]. destruct (thread_of _ _ _ _ _ P Hg) as (k & p & Hk & Hp & T1 & T2).
  assert (Hv : v < length (pstages s)) by (apply nth_error_Some; congruence). set (b := length (pstages s)) in *.
  assert (Tv : trk s v = grk b g k p) by (unfold trk; rewrite Hg, Hk, Hp; reflexivity).
  assert (Tv' : forall g' k' p', nth_error (pstages s') v = Some g' -> nth_error (stages (queue s')) v = Some k' -> nth_error (threads (handler (queue s'))) v = Some p' -> trk s' v = grk b g' k' p').
  { intros g' k' p' H1 H2 H3. unfold trk. rewrite H1, H2, H3, Len. reflexivity. }
  (* only the stage of the thread changes *)
  assert (Simple : forall g', queue s' = queue s -> pstages s' = upd (pstages s) v g' -> grk b g' k p < grk b g k p -> potential s' < potential s).
  { intros g' Hq Hs Hr. apply (drop_one s s' v 0); [exact Len|exact Hv| |].
    - intros t Ht D. unfold trk. rewrite Len, Hq, Hs, nth_upd_other by congruence. fold b. lia.
    - rewrite (Tv' g' k p), Tv, Hq; [fold b; lia|rewrite Hs; eapply nth_upd_same; exact Hg|rewrite Hq; exact Hk|rewrite Hq; exact Hp]. }
  (* the thread calls an operation of the queue *)
  assert (Called : forall g' k' q, queue s' = q -> pstages s' = upd (pstages s) v g' -> stages q = upd (stages (queue s)) v k' -> value (handler q) = value (handler (queue s)) ->
    (exists p', threads (handler q) = upd (threads (handler (queue s))) v p' /\ grk b g' k' p' < grk b g k p) -> potential s' < potential s).
  { intros g' k' q Hq Hs Hst Hva (p' & Ht & Hr). apply (drop_one s s' v 0); [exact Len|exact Hv| |].
    - intros t Hlt D. unfold trk. rewrite Len, Hq, Hs, Hst, Ht, !nth_upd_other by congruence. fold b. lia.
    - rewrite (Tv' g' k' p'), Tv, Hq, Hva; [fold b; lia|rewrite Hs; eapply nth_upd_same; exact Hg|rewrite Hq, Hst; eapply nth_upd_same; exact Hk|rewrite Hq, Ht; eapply nth_upd_same; exact Hp]. }
  (* inside the counter *)
  assert (Inside : counting k = true -> (g = PQueueOff \/ g = PWaitTasks \/ g = PConsume \/ exists id, g = PProduce id) -> potential s' < potential s).
  { intros Kc Kg. assert (Eh : exists h', hstep (handler (queue s)) (Run v pick) = Some h').
    { assert (E1 : in_queue_step v pick g s = Some s') by (destruct Kg as [-> |[-> |[-> |(id & ->)]]]; exact E). unfold in_queue_step in E1. rewrite Hk in E1.
      assert (El : match k with SIncrement | SWait | SOther => CRun v pick | _ => CQueue v end = @CRun nat v pick) by (destruct k; try discriminate; reflexivity).
      rewrite El in E1. cbn [cstep] in E1. rewrite Hk in E1. destruct (hstep (handler (queue s)) (Run v pick)) as [h'|]; [exists h'; reflexivity|discriminate]. }
    destruct Eh as (h' & Eh). destruct (lift_run _ _ _ _ _ _ _ _ P Hg Hk Kc Eh) as (s1 & Es & Hh' & _ & Other & Stay & _ & Back). rewrite E0 in Es. injection Es as <-.
    pose proof (lift_idle _ _ _ _ _ _ _ _ s' P Hg Hk Kc Eh) as Li. destruct (run_rank b _ _ _ _ _ _ _ _ Rh Hp (proj1 (Q v p Hp)) Eh) as (p' & Hp' & M).
    assert (Dn : {p' = Idle} + {p' <> Idle}) by (destruct p'; try (right; discriminate); left; reflexivity).
    assert (Tn : p' <> Idle -> trk s' v = grk b g k p').
    { intro X. destruct Stay as [S1 S2]; [congruence|]. apply Tv'; [exact S2|exact S1|rewrite Hh'; exact Hp']. }
    assert (Oq : quiet (handler (queue s)) h' v -> forall t, t < b -> t <> v -> trk s' t <= trk s t + 0).
    { intros Qt t _ D. unfold trk. destruct (Other t D) as [-> ->]. rewrite Len, Hh', (Qt t D). fold b. lia. }
    assert (On : noisy (handler (queue s)) h' v -> forall t, t < b -> t <> v -> trk s' t <= trk s t + 2).
    { intros Qt t _ D. unfold trk. destruct (Other t D) as [-> ->]. rewrite Len, Hh'. fold b. destruct (nth_error (pstages s) t) as [gt|] eqn:Hgt; [|lia]. destruct (thread_of _ _ _ _ _ P Hgt) as (kt & pt & Hkt & Hpt & _ & _).
      rewrite Hkt, Hpt. destruct (Qt t pt D Hpt) as (pt' & -> & W). exact (woken_grk _ _ _ _ _ W). }
    (* a thread whose call has returned *)
    assert (Tg : forall g' r, nth_error (pstages s') v = Some g' -> (forall k p, grk b g' k p <= r) -> trk s' v <= r).
    { intros g' r H1 H2. unfold trk. rewrite H1, Len. destruct (nth_error (stages (queue s')) v); [|lia]. destruct (nth_error (threads (handler (queue s'))) v); [|lia]. apply H2. }
    assert (Tj : g = PQueueOff -> p' = Idle -> trk s' v <= 1 + b).
    { intros -> ->. apply (Tg _ _ (proj1 (Back Hp') eq_refl)). intros k0 p0. cbn [grk]. pose proof (threads_few _ _ _ R) as X. fold b in X. lia. }
    assert (Tz : g <> PQueueOff -> g <> PConsume -> p' = Idle -> trk s' v = 0).
    { intros X1 X2 ->. specialize (Li Hp' E0). destruct Kg as [-> |[-> |[-> |(id & ->)]]]; try contradiction; (assert (trk s' v <= 0); [apply (Tg _ _ Li); intros; cbn; lia|lia]). }
    inversion M as [Va Qt R1 R17|Hi Hi' Va Qt|kk Hi Hi' Va Qt|w dl fin Hi Hi' Va Qt].
    - apply (drop_one s s' v 0); [exact Len|exact Hv|exact (Oq Qt)|]. rewrite Tv, Hh', Va. fold b.
      destruct Kg as [-> |[-> |[-> |(id & ->)]]]; cbn in T1.
      + subst k. cbn [grk krk]. destruct Dn as [X|X]; [specialize (Tj eq_refl X); lia|]. rewrite (Tn X). cbn [grk krk]. lia.
      + subst k. cbn [grk krk]. destruct Dn as [X|X]; [rewrite (Tz ltac:(discriminate) ltac:(discriminate) X); lia|]. rewrite (Tn X). cbn [grk krk]. lia.
      + destruct T1 as [-> |T1]; [|exfalso; destruct k; try discriminate Kc; discriminate T1]. cbn in T2. destruct T2 as (w & Hw & Htk). destruct (R17 w Hw Htk) as [[X Y]|(r & -> & -> & Lg)].
        * rewrite (Tn X). cbn [grk krk]. lia.
        * pose proof (proj2 (Back Hp') eq_refl w r _ Lg) as B. destruct r.
          -- assert (trk s' v <= 0) by (apply (Tg _ _ B); intros; cbn; lia). cbn. lia.
          -- assert (trk s' v <= 0) by (apply (Tg _ _ B); intros; cbn; lia). cbn. lia.
          -- destruct B as [B1 B2]. rewrite (Tv' PConsume SPop Idle B2 B1); [cbn; lia|]. rewrite Hh'. exact Hp'.
      + exfalso. destruct T1 as [-> | ->]; [discriminate Kc|]. cbn in T2. rewrite T2 in R1. cbn in R1. lia.
    - subst p p'. assert (k = SIncrement) as ->.
      { destruct k; try discriminate Kc; cbn in T2; try reflexivity; [destruct T2 as (w & X & _); discriminate X|destruct T2 as (X & _); contradiction]. }
      assert (exists id, g = PProduce id) as (id & ->).
      { destruct Kg as [-> |[-> |[-> |X]]]; [discriminate|discriminate|destruct T1; discriminate|exact X]. }
      apply (drop_one s s' v 2); [exact Len|exact Hv|exact (On Qt)|]. rewrite Tv, Hh', (Tz ltac:(discriminate) ltac:(discriminate) eq_refl). fold b. cbn [grk krk]. unfold unit_cost in *. nia.
    - subst p p'. assert (k = SOther) as ->.
      { destruct k; try discriminate Kc; cbn in T2; try discriminate T2; try reflexivity. destruct T2 as (w & X & _). discriminate X. }
      assert (Kg' : g = PQueueOff \/ g = PWaitTasks).
      { destruct Kg as [-> |[-> |[-> |(id & ->)]]]; [left; reflexivity|right; reflexivity|destruct T1; discriminate|destruct T1; discriminate]. }
      apply (drop_one s s' v 2); [exact Len|exact Hv|exact (On Qt)|]. rewrite Tv, Hh', Va. fold b. destruct Kg' as [-> | ->]; cbn [grk krk wrk].
      + specialize (Tj eq_refl eq_refl). lia.
      + rewrite (Tz ltac:(discriminate) ltac:(discriminate) eq_refl). lia.
    - subst p p'. apply (drop_one s s' v 2); [exact Len|exact Hv|exact (On Qt)|]. rewrite Tv, Hh', (Tn ltac:(discriminate)). fold b.
      assert (X : grk b g k (WRet w ConditionMet) <= grk b g k (WReason w dl fin) + 15) by (destruct g; cbn [grk]; try lia; destruct k; cbn; lia).
      unfold unit_cost. nia. }
  destruct g as [| |id|id|id| |j| | |us| | | |id|id|]; cbn [prun] in E; try discriminate.
  - (* emit *)
    cbn in T1. subst k. cbn in T2. subst p. destruct (free (slots_mutex s)); [|discriminate]. destruct (registered id s).
    + unfold queue_call in E. revert E. pf. cbn [cstep begin]. rewrite Hk. intro E. injection E as <-. eapply Called; [reflexivity|reflexivity|reflexivity|reflexivity|]. exists Idle. split; [|cbn [grk krk]; lia]. cf.
      symmetry. apply upd_same. exact Hp.
    + injection E as <-. eapply Simple; [reflexivity|reflexivity|cbn [grk]; lia].
  - (* inside emit *)
    cbn in T1. destruct T1 as [-> | ->]; [|apply Inside; [reflexivity|eauto]]. cbn in T2. subst p. unfold in_queue_step in E. rewrite Hk in E. cbn [cstep] in E. rewrite Hk in E. cbn [queue_step] in E.
    assert (Eh : hstep (handler (queue s)) (Call v Increment) = Some (set_pc v ILock (handler (queue s)))) by (unfold hstep, c_step; cbn [step]; rewrite Hp; reflexivity). rewrite Eh in E. revert E. cf. rewrite (nth_upd_same _ _ _ _ Hk). intro E. injection E as <-.
    eapply (Called (PProduce id)); [reflexivity|pf|reflexivity|reflexivity|].
    + symmetry. apply upd_same. exact Hg.
    + exists ILock. split; [reflexivity|]. cbn [grk krk]. lia.
  - destruct (free (slots_mutex s)); [|discriminate]. destruct (registered id s); injection E as <-; (eapply Simple; [reflexivity|reflexivity|cbn [grk]; lia]).
  - destruct (pool_enabled s); injection E as <-; (eapply Simple; [reflexivity|reflexivity|cbn [grk]; lia]).
  - destruct j as [|j]; [injection E as <-; eapply Simple; [reflexivity|reflexivity|cbn [grk]; lia]|].
    destruct (nth_error (pstages s) pick) as [g|] eqn:Hpk; [|discriminate]. destruct g; try discriminate. injection E as <-. assert (D : v <> pick) by congruence.
    assert (Hl : pick < b) by (apply nth_error_Some; congruence). destruct (thread_of _ _ _ _ _ P Hpk) as (k1 & p1 & Hk1 & Hp1 & _ & _).
    apply (drop_one s _ pick 0); [exact Len|exact Hl| |].
    + intros t _ Dt. unfold trk. rewrite Len. pf. fold b. destruct (Nat.eq_dec t v) as [->|Dv].
      * rewrite Hg, Hk, Hp. rewrite (nth_upd_same (upd (pstages s) pick PLoop) v (PSpawn j) (PSpawn (S j))) by (rewrite nth_upd_other by congruence; exact Hg). cbn [grk]. lia.
      * rewrite !nth_upd_other by congruence. lia.
    + unfold trk. rewrite Len. pf. fold b. rewrite nth_upd_other by congruence. rewrite (nth_upd_same _ _ _ _ Hpk), Hpk, Hk1, Hp1. cbn [grk]. lia.
  - (* disable *)
    cbn in T1. subst k. cbn in T2. subst p. destruct (pool_enabled s).
    + unfold queue_call in E. revert E. pf. cbn [cstep begin]. rewrite Hk. unfold hstep, c_step. cbn [step]. rewrite Hp. intro E. injection E as <-. eapply Called; [reflexivity|reflexivity|reflexivity|reflexivity|].
      eexists. split; [reflexivity|]. cbn [grk krk wrk start]. lia.
    + injection E as <-. eapply Simple; [reflexivity|reflexivity|cbn [grk]; lia].
  - cbn in T1. apply Inside; [subst k; reflexivity|auto].
  - destruct us as [|u us]; [injection E as <-; eapply Simple; [reflexivity|reflexivity|cbn [grk]; lia]|]. destruct (nth_error (pstages s) u) as [g|]; [|discriminate]. destruct g; try discriminate. injection E as <-. eapply Simple; [reflexivity|reflexivity|cbn [grk length]; lia].
  - cbn in T1. apply Inside; [subst k; reflexivity|auto].
  - (* consume *)
    cbn in T1. subst k. cbn in T2. subst p. unfold queue_call in E. revert E. cbn [cstep begin]. rewrite Hk. unfold hstep, c_step. cbn [step]. rewrite Hp. intro E. injection E as <-. eapply Called; [reflexivity|reflexivity|reflexivity|reflexivity|].
    eexists. split; [reflexivity|]. cbn. lia.
  - cbn in T1. destruct T1 as [-> |T1]; [apply Inside; [reflexivity|auto]|]. clear Inside.
    assert (Idl : p = Idle) by (destruct k; try discriminate; exact T2). subst p.
    assert (Eq : exists q, cstep (queue s) (CQueue v) = Some q).
    { unfold in_queue_step in E. rewrite Hk in E. assert (El : match k with SIncrement | SWait | SOther => CRun v pick | _ => CQueue v end = @CQueue nat v) by (destruct k; try discriminate; reflexivity). rewrite El in E. destruct (cstep (queue s) (CQueue v)) as [q|]; [exists q; reflexivity|discriminate]. }
    destruct Eq as (q & Eq). assert (E1 : pstep s (PRun v pick) = pstep s (PRun v 0)).
    { cbn [pstep]. rewrite Hg. cbn [prun]. unfold in_queue_step. rewrite Hk. destruct k; try discriminate; reflexivity. }
    destruct (lift_queue _ _ _ _ _ _ P Hg Hk T1 Eq) as (s1 & k' & Es & Hq & Hk' & _ & Other & F). rewrite <- E1, E0 in Es. injection Es as <-.
    assert (Hh : handler q = handler (queue s)) by (cbn [cstep] in Eq; rewrite Hk in Eq; destruct k; try discriminate; cbn [queue_step] in Eq;
      repeat match type of Eq with context [if ?x then _ else _] => destruct x | context [match ?x with [] => _ | _ => _ end] => destruct x end; try discriminate; injection Eq as <-; reflexivity).
    apply (drop_one s s' v 0); [exact Len|exact Hv| |].
    + intros t _ D. unfold trk. rewrite Len, Hq, Hh. destruct (Other t D) as [-> ->]. fold b. lia.
    + rewrite Hq, Hh, Tv. fold b. destruct F as [[H1 H2]|[-> H2]].
      * rewrite (Tv' PConsume k' Idle H2); [|rewrite Hq; exact Hk'|rewrite Hq, Hh; exact Hp]. cbn [grk].
        assert (krk b k' Idle < krk b k Idle); [|lia]. cbn [cstep] in Eq. rewrite Hk in Eq. destruct k; try discriminate; cbn [queue_step] in Eq;
          repeat match type of Eq with context [if ?x then _ else _] => destruct x | context [match ?x with [] => _ | _ => _ end] => destruct x end; try discriminate; injection Eq as <-; revert Hk'; cf; rewrite (nth_upd_same _ _ _ _ Hk); intro X; injection X as <-; try discriminate H1; cbn; lia.
      * assert (Z : exists g', nth_error (pstages s') v = Some g' /\ forall k p, grk b g' k p <= 10) by (destruct H2 as [H2|(x & H2)]; eexists; (split; [exact H2|]); intros; cbn; lia).
        destruct Z as (g' & H3 & H4). rewrite (Tv' g' SIdle Idle H3); [|rewrite Hq; exact Hk'|rewrite Hq, Hh; exact Hp]. specialize (H4 SIdle Idle). cbn [grk]. destruct k; try discriminate; cbn [krk]; lia.
  - destruct (free (slots_mutex s)); [|discriminate]. destruct (registered id s); injection E as <-; (eapply Simple; [reflexivity|reflexivity|cbn [grk]; lia]).
  - injection E as <-. eapply Simple; [reflexivity|reflexivity|cbn [grk]; lia].
Qed.
Lemma runs_end_lemma : forall n m s, preachable any_label (pinit n m) s -> exists k, forall ls s', Forall goes_on ls -> psteps s ls = Some s' -> length ls <= k.
Proof.
  intros n m s R. exists (potential s). intros ls. revert s R. induction ls as [|l ls IH]; intros s R s' F E; [cbn; lia|]. inversion F as [|? ? (t & pick & ->) F']; subst. cbn [psteps] in E.
  destruct (pstep s (PRun t pick)) as [s1|] eqn:E1; [|discriminate]. pose proof (run_drops _ _ _ _ _ _ R E1) as D. assert (R1 : preachable any_label (pinit n m) s1) by (econstructor; [exact R|exact I|exact E1]).
  pose proof (IH s1 R1 s' F' E). cbn [length]. lia.
Qed.

(** ** When no thread can go on *)
Lemma rest_disabling n m s t g : preachable any_label (pinit n m) s -> at_rest s -> nth_error (pstages s) t = Some g -> disabling g = false.
Proof.
  intros R Z Ht. destruct (disabling g) eqn:D; [|reflexivity]. destruct (disable_returns_lemma _ _ _ _ _ R Ht D) as (ls & s' & evs & F & E & H & _). destruct ls as [|l ls].
  - injection E as <-. rewrite Ht in H. injection H as ->. discriminate.
  - inversion F as [|? ? (v & pick & ->) _]; subst. cbn [psteps] in E. rewrite (Z v pick) in E. discriminate.
Qed.
Lemma rest_operation s ls s' u g : at_rest s -> nth_error (pstages s) u = Some g -> g <> PIdle -> psteps s ls = Some s' -> only_operations s ls -> nth_error (pstages s') u = Some PIdle -> False.
Proof.
  intros Z Hu Hg E O H. destruct ls as [|l ls]; [injection E as <-; congruence|]. destruct O as (v & pick & gv & s1 & -> & _ & _ & X & _). rewrite (Z v pick) in X. discriminate.
Qed.
Lemma rest_emit n m s u id : preachable any_label (pinit n m) s -> at_rest s -> nth_error (pstages s) u <> Some (PEmit id) /\ nth_error (pstages s) u <> Some (PProduce id) /\ nth_error (pstages s) u <> Some (PSlot id).
Proof.
  intros R Z. split; [|split]; intro Hu.
  - destruct (emit_returns_lemma _ _ _ _ _ R (or_introl Hu)) as (ls & s' & E & _ & O & H & _). eapply rest_operation; [exact Z|exact Hu|discriminate|exact E|exact O|exact H].
  - destruct (emit_returns_lemma _ _ _ _ _ R (or_intror Hu)) as (ls & s' & E & _ & O & H & _). eapply rest_operation; [exact Z|exact Hu|discriminate|exact E|exact O|exact H].
  - destruct (slot_returns_lemma _ _ _ _ _ R Hu) as (ls & s' & E & _ & O & H & _). eapply rest_operation; [exact Z|exact Hu|discriminate|exact E|exact O|exact H].
Qed.
(** a thread that is inside the counter and could make a step *)
Lemma rest_counter n m s v k pick h' : PInv n m s -> at_rest s -> nth_error (stages (queue s)) v = Some k -> counting k = true -> hstep (handler (queue s)) (Run v pick) = Some h' -> False.
Proof.
  intros P Z Hk Kc Eh. destruct (same_length _ _ _ _ (eq_sym (pi_length _ _ _ P)) Hk) as (g & Hg). destruct (lift_run _ _ _ _ _ _ _ _ P Hg Hk Kc Eh) as (s' & Es & _). rewrite (Z v pick) in Es. discriminate.
Qed.
Lemma rest_mutex n m s : preachable any_label (pinit n m) s -> at_rest s -> mutex (handler (queue s)) = None.
Proof.
  intros R Z. destruct (mutex (handler (queue s))) as [v|] eqn:Hm; [exfalso|reflexivity]. destruct (preachable_qi _ _ _ _ R) as [P Q]. pose proof (creachable_cinv _ _ _ _ _ (pi_queue _ _ _ P)) as C. pose proof (ci_handler _ _ _ _ _ C) as Rh.
  destruct (owner_lemma _ _ _ _ _ Rh Hm) as (p & Hp). destruct (inv_ok _ _ _ (reachable_inv _ _ _ _ _ _ _ _ _ _ Rh) v p Hp) as ((_ & Hh) & _ & _). specialize (Hh Hm). destruct (holder_runs _ _ _ _ _ Rh Hm) as (pick & h' & Eh & _).
  destruct (same_length _ _ _ _ (eq_sym (ci_length _ _ _ _ _ C)) Hp) as (k & Hk). pose proof (ci_tie _ _ _ _ _ C _ _ _ Hk Hp) as T. eapply rest_counter; [exact P|exact Z|exact Hk| |exact Eh]. destruct k; try reflexivity; cbn in T; subst p; discriminate.
Qed.
(** a thread of the pool sleeps in consume *)
Lemma rest_thread n m s u g : preachable any_label (pinit n m) s -> at_rest s -> nth_error (pstages s) u = Some g -> pool_thread g = true -> g = PConsume /\ nth_error (stages (queue s)) u = Some SWait /\ asleep s u.
Proof.
  intros R Z Hu Hp. pose proof (rest_mutex _ _ _ R Z) as Hm. destruct (preachable_qi _ _ _ _ R) as [P Q]. pose proof (preachable_slots _ _ _ _ R) as K. pose proof (creachable_cinv _ _ _ _ _ (pi_queue _ _ _ P)) as C. pose proof (ci_handler _ _ _ _ _ C) as Rh.
  destruct (thread_of _ _ _ _ _ P Hu) as (k & p & Hk & Hpu & T1 & T2). pose proof (Z u 0) as Z0. cbn [pstep] in Z0. rewrite Hu in Z0. destruct g; try discriminate; cbn [prun] in Z0.
  - exfalso. cbn in T1. subst k. cbn in T2. subst p. unfold queue_call in Z0. cbn [cstep begin] in Z0. rewrite Hk in Z0. unfold hstep, c_step in Z0. cbn [step] in Z0. rewrite Hpu in Z0. discriminate.
  - split; [reflexivity|]. cbn in T1. destruct T1 as [-> |T1].
    + split; [exact Hk|]. cbn in T2. destruct T2 as (w & Hw & _). destruct (inv_ok _ _ _ (reachable_inv _ _ _ _ _ _ _ _ _ _ Rh) u p Hpu) as ((Hh & _) & _ & _). rewrite Hm in Hh.
      destruct p; try discriminate Hw; try (specialize (Hh eq_refl); discriminate); [exfalso|eexists; eexists; exact Hpu|exfalso];
        (eapply (rest_counter n m s u SWait 0); [exact P|exact Z|exact Hk|reflexivity|unfold hstep, c_step; cbn [step]; rewrite Hpu; cbn [run]; rewrite Hm; reflexivity]).
    + exfalso. assert (Go : forall v kv q, nth_error (pstages s) v = Some PConsume -> nth_error (stages (queue s)) v = Some kv -> qpop kv = true -> cstep (queue s) (CQueue v) = Some q -> False).
      { intros v kv q H1 H2 H3 H4. destruct (lift_queue _ _ _ _ _ _ P H1 H2 H3 H4) as (s' & k' & Es & _). rewrite (Z v 0) in Es. discriminate. }
      assert (Own : forall v kv, nth_error (pstages s) v = Some PConsume -> nth_error (stages (queue s)) v = Some kv -> holds_pop nat kv = true -> False).
      { intros v kv H1 H2 H3. assert (X : exists q, cstep (queue s) (CQueue v) = Some q) by (cbn [cstep]; rewrite H2; destruct kv; try discriminate; cbn [queue_step]; try destruct (foreground (queue s)); eexists; reflexivity).
        destruct X as (q & X). apply (Go v kv q H1 H2); [destruct kv; try discriminate; reflexivity|exact X]. }
      destruct (holds_pop nat k) eqn:Hh; [exact (Own u k Hu Hk Hh)|]. assert (k = SPop) as -> by (destruct k; try discriminate; reflexivity). destruct (pop_mutex (queue s)) as [v|] eqn:Hx.
      * pose proof (ci_owner _ _ _ _ _ C v Hx) as Lv. destruct (nth_error (stages (queue s)) v) as [kv|] eqn:Hkv; [|apply nth_error_None in Hkv; lia].
        assert (Hpv : holds_pop nat kv = true) by (apply (ci_pop _ _ _ _ _ C _ _ Hkv); exact Hx). destruct (same_length _ _ _ _ (eq_sym (pi_length _ _ _ P)) Hkv) as (gv & Hgv). pose proof (pi_tie _ _ _ P _ _ _ Hgv Hkv) as T3.
        assert (gv = PConsume) as -> by (destruct gv; cbn in T3; try (subst kv; discriminate); try reflexivity; destruct T3 as [-> | ->]; discriminate). exact (Own v kv Hgv Hkv Hpv).
      * eapply (Go u SPop); [exact Hu|exact Hk|reflexivity|]. cbn [cstep]. rewrite Hk. cbn [queue_step]. rewrite Hx. reflexivity.
  - exfalso. destruct (slots_mutex s) as [v|] eqn:Hsm; [|cbn [free] in Z0; destruct (registered id s); discriminate]. apply K in Hsm as (i & Hv). exact (proj1 (proj2 (rest_emit _ _ _ v i R Z)) Hv).
Qed.
Lemma rest_counters : forall n m s u g, pbounded (pinit n m) s -> at_rest s -> ~ queue_off s -> nth_error (pstages s) u = Some g -> pool_thread g = true ->
  value (handler (queue s)) = 0%N /\ count granted (threads (handler (queue s))) = 0 /\ count incrementing (threads (handler (queue s))) = 0.
Proof.
  intros n m s u g B Z On Hu Hp. destruct (pbounded_inv _ _ _ B) as [R B0]. destruct (preachable_qi _ _ _ _ R) as [P Q]. destruct (bounded_bal _ _ _ _ B0) as (C & Bl & _). pose proof (ci_handler _ _ _ _ _ C) as Rh.
  pose proof (rest_mutex _ _ _ R Z) as Hm. pose proof (reachable_inv _ _ _ _ _ _ _ _ _ _ Rh) as Iv.
  (* what the threads do in the counter *)
  assert (St : forall t p, nth_error (threads (handler (queue s))) t = Some p -> granted p = false /\ incrementing p = false /\ (awake_taker p || about_to_notify p) = false).
  { intros t p Hpt. destruct (same_length _ _ _ _ (eq_sym (ci_length _ _ _ _ _ C)) Hpt) as (k & Hk). destruct (same_length _ _ _ _ (eq_sym (pi_length _ _ _ P)) Hk) as (g0 & Hg0). pose proof (pi_tie _ _ _ P _ _ _ Hg0 Hk) as T1. pose proof (ci_tie _ _ _ _ _ C _ _ _ Hk Hpt) as T2.
    destruct k; cbn in T2; try (subst p; repeat split; reflexivity).
    - (* incrementing: a thread inside emit *)
      exfalso. assert (exists id, g0 = PProduce id) as (id & ->) by (destruct g0; cbn in T1; try discriminate; eauto; destruct T1; discriminate). exact (proj1 (proj2 (rest_emit _ _ _ t id R Z)) Hg0).
    - assert (g0 = PConsume) as -> by (destruct g0; cbn in T1; try discriminate; try reflexivity; destruct T1; discriminate). destruct (rest_thread _ _ _ _ _ R Z Hg0 eq_refl) as (_ & _ & w & dl & X). rewrite Hpt in X. injection X as ->. repeat split; reflexivity.
    - destruct T2 as (H1 & H2 & H3). assert (Nn : about_to_notify p = false).
      { destruct (about_to_notify p) eqn:X; [exfalso|reflexivity]. destruct p; try discriminate; (eapply (rest_counter n m s t SOther 0); [exact P|exact Z|exact Hk|reflexivity|unfold hstep, c_step; cbn [step]; rewrite Hpt; reflexivity]). }
      rewrite Nn, orb_false_r. destruct p; try (repeat split; reflexivity); try contradiction; rewrite ?(H3 _ eq_refl); cbn; rewrite ?(H3 _ eq_refl); try (repeat split; reflexivity). destruct r; repeat split; reflexivity. }
  assert (V : value (handler (queue s)) = 0%N).
  { destruct (rest_thread _ _ _ _ _ R Z Hu Hp) as (-> & Hk & w & dl & Hs). pose proof (ci_tie _ _ _ _ _ C _ _ _ Hk Hs) as (w' & X & Htk). injection X as <-.
    destruct (c_above 0 (value (handler (queue s)))) eqn:Ab; [|unfold c_above in Ab; lia]. exfalso.
    pose proof (ct_pc _ _ _ _ (reachable_counter _ _ _ _ _ _ _ _ _ Rh) u _ Hs) as Cp. unfold counter_pc in Cp. cbn in Cp. rewrite Htk in Cp. destruct Cp as [Cv _].
    destruct (counter_wakeup_lemma _ _ _ _ _ _ _ _ _ u _ Rh Hs) as (v & q & Hv & Hq); [cbn; rewrite Cv; reflexivity|unfold queue_off in On; destruct (enabled (handler (queue s))); congruence|exact Ab|].
    destruct (St v q Hv) as (_ & _ & X). congruence. }
  split; [exact V|]. split; apply count_zero; intros t p Ht; [exact (proj1 (St t p Ht))|exact (proj1 (proj2 (St t p Ht)))].
Qed.
Lemma all_executed_lemma : forall n m s u g, pbounded (pinit n m) s -> at_rest s -> ~ queue_off s -> nth_error (pstages s) u = Some g -> pool_thread g = true ->
  Permutation (emitted s) (started s) /\ Permutation (started s) (finished s).
Proof.
  intros n m s u g B Z On Hu Hp. destruct (pbounded_inv _ _ _ B) as [R B0]. destruct (preachable_qi _ _ _ _ R) as [P Q]. destruct (bounded_bal _ _ _ _ B0) as (C & Bl & _). pose proof (ci_handler _ _ _ _ _ C) as Rh.
  pose proof (rest_mutex _ _ _ R Z) as Hm. pose proof (reachable_inv _ _ _ _ _ _ _ _ _ _ Rh) as Iv.
  assert (Bodies : forall t g0, nth_error (pstages s) t = Some g0 -> (forall id, g0 <> PTask id) /\ (forall id, g0 <> PBody id)).
  { intros t g0 H0. split; intros id ->; destruct (rest_thread _ _ _ _ _ R Z H0 eq_refl) as [X _]; discriminate. }
  destruct (rest_counters _ _ _ _ _ B Z On Hu Hp) as (V & G0 & I0).
  pose proof (ba_sum _ _ _ Bl) as Sum. rewrite V in Sum. unfold debt in Sum.
  assert (Pz : count (popping nat) (stages (queue s)) = 0).
  { apply count_zero. intros t k Hk. destruct (popping nat k) eqn:X; [exfalso|reflexivity]. destruct (same_length _ _ _ _ (eq_sym (pi_length _ _ _ P)) Hk) as (g0 & Hg0). pose proof (pi_tie _ _ _ P _ _ _ Hg0 Hk) as T1.
    assert (g0 = PConsume) as -> by (destruct g0; cbn in T1; try (subst k; discriminate); try reflexivity; destruct T1 as [-> | ->]; discriminate). destruct (rest_thread _ _ _ _ _ R Z Hg0 eq_refl) as (_ & Y & _). rewrite Hk in Y. injection Y as ->. discriminate. }
  rewrite G0, I0, Pz in Sum.
  split.
  - unfold in_queue in Sum. assert (emitted s = taken s) as ->.
    { unfold emitted, taken. rewrite (ci_order _ _ _ _ _ C). destruct (foreground (queue s)); [|cbn in Sum; lia]. destruct (background (queue s)); [|cbn in Sum; lia]. apply app_nil_r. }
    pose proof (taken_permutation _ _ _ P) as Pm. assert (Zh : held (pstages s) = []).
    { apply length_zero_iff_nil. rewrite held_length. apply count_zero. intros t g0 H0. destruct (Bodies t g0 H0) as [X _]. destruct g0; try reflexivity. exfalso. exact (X _ eq_refl). }
    rewrite Zh, app_nil_r in Pm. exact Pm.
  - apply (Permutation_count_occ Nat.eq_dec). intros id. pose proof (preachable_balanced any_label n m s R id) as Bal.
    assert (count (body id) (pstages s) = 0) as Z0. { apply count_zero. intros t g0 H0. destruct (Bodies t g0 H0) as [_ X]. destruct g0; try reflexivity. exfalso. exact (X _ eq_refl). }
    unfold times in Bal. lia.
Qed.

(** ** wait_all_consumed *)
Lemma bounded_threshold n m s : pbounded (pinit n m) s -> Threshold N (c_reached 0) (handler (queue s)).
Proof.
  intros B. induction B as [|s l s' B IH E L].
  - intros t w dl Hp. apply Wait_proofs.nth_repeat in Hp. discriminate.
  - destruct (pbounded_inv _ _ _ B) as [R B0]. destruct (bounded_bal _ _ _ _ B0) as (C & Bl & Lt). pose proof (ci_handler _ _ _ _ _ C) as Rh.
    destruct (pstep_queue _ _ _ E) as [->|(ql & A & Eq)]; [exact IH|]. destruct (cstep_handler _ _ _ A Eq) as [->|(hl & Cl & Eh)]; [exact IH|].
    eapply step_threshold; [|exact (reachable_inv _ _ _ _ _ _ _ _ _ _ Rh)|exact (reachable_counter _ _ _ _ _ _ _ _ _ Rh)|exact IH| |exact Eh].
    + intros v Hv. unfold c_above, c_reached in *. lia.
    + split; [destruct hl as [? []|? ?|?|?|]; cbn in *; auto|]. destruct hl as [t o|t pick|t|t|]; try exact I. intro Hi. pose proof (ba_sum _ _ _ Bl) as Sum. unfold debt in Sum.
      assert (Pos : 0 < count incrementing (threads (handler (queue s)))).
      { destruct (count incrementing (threads (handler (queue s)))) eqn:X; [|lia]. pose proof (proj1 (count_zero incrementing _) X t _ Hi). discriminate. }
      unfold c_reached, c_incr. rewrite N.mod_small by lia. lia.
Qed.
Lemma rest_other n m s u p : preachable any_label (pinit n m) s -> at_rest s -> nth_error (stages (queue s)) u = Some SOther -> nth_error (threads (handler (queue s))) u = Some p -> exists w dl, p = WSleep w dl /\ w_cv w = Thr.
Proof.
  intros R Z Hk Hp. pose proof (rest_mutex _ _ _ R Z) as Hm. destruct (preachable_qi _ _ _ _ R) as [P Q]. pose proof (creachable_cinv _ _ _ _ _ (pi_queue _ _ _ P)) as C. pose proof (ci_handler _ _ _ _ _ C) as Rh. pose proof (reachable_inv _ _ _ _ _ _ _ _ _ _ Rh) as Iv.
  pose proof (ci_tie _ _ _ _ _ C _ _ _ Hk Hp) as (T1 & T2 & T3). destruct (inv_ok _ _ _ Iv u p Hp) as ((Hh & _) & _ & _). rewrite Hm in Hh. pose proof (ct_pc _ _ _ _ (reachable_counter _ _ _ _ _ _ _ _ _ Rh) u p Hp) as Cp.
  assert (Go : forall v q pick h', nth_error (threads (handler (queue s))) v = Some q -> q <> Idle -> hstep (handler (queue s)) (Run v pick) = Some h' -> False).
  { intros v q pick h' Hq Hi Eh. destruct (same_length _ _ _ _ (eq_sym (ci_length _ _ _ _ _ C)) Hq) as (k & Hkv). pose proof (ci_tie _ _ _ _ _ C _ _ _ Hkv Hq) as T. eapply rest_counter; [exact P|exact Z|exact Hkv| |exact Eh]. destruct k; try reflexivity; cbn in T; contradiction. }
  assert (Ctl : forall v q, nth_error (threads (handler (queue s))) v = Some q -> holds_status N q = true -> False).
  { intros v q Hq Hs. destruct (Q v q Hq) as [Ck _]. destruct q; try discriminate; try contradiction.
    - destruct (enabled (handler (queue s))) eqn:En; (eapply (Go v _ 0 _ Hq); [discriminate|]; unfold hstep, c_step; cbn [step]; rewrite Hq; cbn [run]; rewrite En; reflexivity).
    - eapply (Go v _ 0 _ Hq); [discriminate|]. unfold hstep, c_step. cbn [step]. rewrite Hq. cbn [run]. rewrite Hm. reflexivity.
    - eapply (Go v _ 0 _ Hq); [discriminate|]. unfold hstep, c_step. cbn [step]. rewrite Hq. reflexivity. }
  destruct p; try contradiction; try (specialize (Hh eq_refl); discriminate); try (exfalso; exact (Ctl u _ Hp eq_refl)).
  - exfalso. eapply (Go u _ 0 _ Hp); [discriminate|]. unfold hstep, c_step. cbn [step]. rewrite Hp. cbn [run]. rewrite Hm. reflexivity.
  - exists w, dl. split; [reflexivity|]. unfold counter_pc in Cp. cbn [wait_of] in Cp. rewrite (T3 w eq_refl) in Cp. exact (proj1 Cp).
  - exfalso. eapply (Go u _ 0 _ Hp); [discriminate|]. unfold hstep, c_step. cbn [step]. rewrite Hp. cbn [run]. rewrite Hm. reflexivity.
  - exfalso. eapply (Go u _ 0 _ Hp); [discriminate|]. unfold hstep, c_step. cbn [step]. rewrite Hp. cbn [run]. rewrite Hm. reflexivity.
  - exfalso. destruct (status (handler (queue s))) as [v|] eqn:Hx.
    + destruct (status_owner _ _ _ _ _ Rh Hx) as (q & Hq). destruct (inv_ok _ _ _ Iv v q Hq) as (_ & (_ & Hs) & _). exact (Ctl v q Hq (Hs Hx)).
    + eapply (Go u _ 0 _ Hp); [discriminate|]. unfold hstep, c_step. cbn [step]. rewrite Hp. cbn [run]. rewrite Hx. reflexivity.
Qed.
Lemma wait_returns_lemma : forall n m s u g t, pbounded (pinit n m) s -> at_rest s -> ~ queue_off s -> nth_error (pstages s) u = Some g -> pool_thread g = true -> nth_error (pstages s) t <> Some PWaitTasks.
Proof.
  intros n m s u g t B Z On Hu Hp Ht. destruct (pbounded_inv _ _ _ B) as [R B0]. destruct (preachable_qi _ _ _ _ R) as [P Q]. destruct (rest_counters _ _ _ _ _ B Z On Hu Hp) as (V & _ & _).
  destruct (thread_of _ _ _ _ _ P Ht) as (k & p & Hk & Hpt & T1 & _). cbn in T1. subst k. destruct (rest_other _ _ _ _ _ R Z Hk Hpt) as (w & dl & -> & Cv). pose proof (bounded_threshold _ _ _ B t w dl Hpt Cv) as X. rewrite V in X. discriminate.
Qed.

Lemma not_endless_lemma : forall n m (run : nat -> pstate), preachable any_label (pinit n m) (run 0) -> (forall i, exists t pick, pstep (run i) (PRun t pick) = Some (run (S i))) -> False.
Proof.
  intros n m run R H. assert (X : forall i, preachable any_label (pinit n m) (run i) /\ potential (run i) + i <= potential (run 0)).
  { induction i as [|i [Ri Pi]]; [split; [exact R|lia]|]. destruct (H i) as (t & pick & E). pose proof (run_drops _ _ _ _ _ _ Ri E). split; [econstructor; [exact Ri|exact I|exact E]|lia]. }
  destruct (X (S (potential (run 0)))) as [_ Y]. lia.
Qed.
