From Coq Require Import List Bool Arith Lia.
From Verif Require Import Wait_model Wait_spec Wait_proofs.
Import ListNotations.

Section Return.
Variables (V : Type) (above reached : V -> bool) (incr decr : V -> V).
Implicit Types (s : state V) (p q : pc V).
Notation step := (step above reached incr decr).
Notation steps := (steps above reached incr decr).
Notation reachable := (reachable above reached incr decr).

(** *** The mutex belongs to a thread *)
Definition owned s : Prop := forall u, mutex s = Some u -> u < length (threads s).

Lemma good_owned s s' : good V decr s s' -> owned s -> owned s'.
Proof.
  intros (t & p & p' & M & _) H u Hu. destruct (mv_thr _ _ _ _ _ _ M) as (L & _). rewrite L, upd_length.
  destruct (Nat.eq_dec u t) as [->|N].
  - apply nth_error_Some. rewrite (mv_at _ _ _ _ _ _ M). discriminate.
  - apply H. apply (mv_mutex _ _ _ _ _ _ M u N). exact Hu.
Qed.

Lemma reachable_owned allowed v en n s : reachable allowed (init v en n) s -> owned s.
Proof.
  induction 1 as [|s l s' R IH A E]; [intros u; discriminate|].
  destruct (step_good _ _ _ _ _ s l s' (reachable_inv _ _ _ _ _ _ _ _ _ _ R) E) as [[_ ->]|G]; [exact IH|].
  eapply good_owned; [exact G|exact IH].
Qed.

(** *** What remains to be done by the threads inside waits, once disabled *)
Definition weight p : nat :=
  match p with
  | WWoken _ _ _ => 5 | WTest _ _ | WFinal _ _ => 4 | WExit _ _ _ => 3 | WReason _ _ _ | WCheck _ => 2 | WRet _ _ => 1
  | _ => 0
  end.
Fixpoint total (l : list (pc V)) : nat := match l with [] => 0 | p :: l' => weight p + total l' end.

Lemma total_upd : forall l i x y, nth_error l i = Some y -> total (upd l i x) + weight y = total l + weight x.
Proof.
  induction l as [|z l IH]; intros [|i] x y H; cbn [nth_error upd total] in *; try discriminate.
  - injection H as ->. lia.
  - specialize (IH i x y H). lia.
Qed.

Definition asleep p : bool := match p with WSleep _ _ => true | _ => false end.

Record Leaving s t k : Prop := {
  lv_inv : Inv V decr s;
  lv_owned : owned s;
  lv_off : enabled s = false;
  lv_awake : forall u q, nth_error (threads s) u = Some q -> asleep q = false;
  lv_loop : nth_error (threads s) t = Some (BLoop k) \/ nth_error (threads s) t = Some (BMutex k) \/ nth_error (threads s) t = Some (BNotify k) }.

Lemma leaving_move s t k u p p' s' : Leaving s t k -> nth_error (threads s) u = Some p ->
  step s (Run u 0) = Some s' -> threads s' = upd (threads s) u p' -> enabled s' = false -> asleep p' = false ->
  weight p' < weight p -> Leaving s' t k /\ total (threads s') < total (threads s).
Proof.
  intros [I O E A L] Hu St Ht Ee Ap W. split.
  - constructor.
    + eapply step_inv; [exact I|exact St].
    + destruct (step_good _ _ _ _ _ s _ s' I St) as [[X _]|G]; [discriminate|]. eapply good_owned; [exact G|exact O].
    + exact Ee.
    + intros v q Hq. rewrite Ht in Hq. destruct (Nat.eq_dec u v) as [<-|N].
      * rewrite (nth_upd_same _ _ _ p) in Hq by exact Hu. injection Hq as <-. exact Ap.
      * rewrite nth_upd_other in Hq by exact N. exact (A v q Hq).
    + assert (N : u <> t). { intros ->. rewrite Hu in L. destruct L as [L|[L|L]]; injection L as ->; cbn in W; lia. }
      rewrite Ht, nth_upd_other by exact N. exact L.
  - pose proof (total_upd (threads s) u p' p Hu). rewrite Ht. lia.
Qed.

Lemma leaving_step s t k : Leaving s t k -> (exists u q, nth_error (threads s) u = Some q /\ 0 < weight q) ->
  exists u s', step s (Run u 0) = Some s' /\ Leaving s' t k /\ total (threads s') < total (threads s).
Proof.
  intros Lv (u & q & Hu & W). pose proof (lv_off _ _ _ Lv) as E.
  assert (X : exists u p, nth_error (threads s) u = Some p /\ 0 < weight p /\ (mutex s = None \/ mutex s = Some u)).
  { destruct (mutex s) as [o|] eqn:M; [|exists u, q; split; [exact Hu|split; [exact W|left; reflexivity]]].
    pose proof (lv_owned _ _ _ Lv o M) as B. destruct (nth_error (threads s) o) as [p|] eqn:Ho; [|apply nth_error_None in Ho; lia].
    exists o, p. split; [exact Ho|]. split; [|right; reflexivity].
    destruct (inv_ok _ _ _ (lv_inv _ _ _ Lv) o p Ho) as (Hm & _). apply Hm in M. destruct p; try discriminate; cbn; lia. }
  clear u q Hu W. destruct X as (u & p & Hu & W & M). exists u.
  assert (C : forall w : wait_call V, condition w s = true) by (intros w; unfold condition; rewrite E; reflexivity).
  pose proof (inv_ok _ _ _ (lv_inv _ _ _ Lv) u p Hu) as (Hm & _).
  assert (G : forall s' p', step s (Run u 0) = Some s' -> threads s' = upd (threads s) u p' -> enabled s' = false -> asleep p' = false ->
    weight p' < weight p -> exists s'', step s (Run u 0) = Some s'' /\ Leaving s'' t k /\ total (threads s'') < total (threads s)).
  { intros s' p' S1 S2 S3 S4 S5. exists s'. split; [exact S1|]. eapply leaving_move; eassumption. }
  assert (R : step s (Run u 0) = run above reached incr decr u p 0 s) by (cbn [Wait_model.step]; rewrite Hu; reflexivity).
  destruct p; cbn [weight] in W; try lia; cbn [run] in R; cbn [holds_mutex] in Hm.
  - rewrite E in R. cbn [negb] in R. eapply G; [exact R|reflexivity|exact E|reflexivity|cbn; lia].
  - rewrite C in R. eapply G; [exact R|reflexivity|exact E|reflexivity|cbn; lia].
  - destruct M as [M|M]; [|apply Hm in M; discriminate]. rewrite M in R. cbn [free] in R.
    destruct timedout; (eapply G; [exact R|reflexivity|exact E|reflexivity|cbn; lia]).
  - eapply G; [exact R|reflexivity|exact E|reflexivity|cbn; lia].
  - eapply G; [exact R|reflexivity|exact E|reflexivity|cbn; lia].
  - rewrite E in R. cbn [negb] in R. eapply G; [exact R|reflexivity|exact E|reflexivity|cbn; lia].
  - eapply G; [exact R|reflexivity|exact E|reflexivity|cbn; lia].
Qed.

Definition only_runs (ls : list (label V)) : Prop := forall l, In l ls -> exists u pick, l = Run u pick.

Lemma steps_app : forall ls ls' s s1, steps s ls = Some s1 -> steps s (ls ++ ls') = steps s1 ls'.
Proof.
  induction ls as [|l ls IH]; intros ls' s s1 H; cbn in *; [injection H as ->; reflexivity|].
  destruct (step s l) as [s2|]; [|discriminate]. apply IH. exact H.
Qed.

Lemma wake_awake c l : (forall u q, nth_error l u = Some q -> asleep q = false) -> map (@wake V c) l = l.
Proof.
  induction l as [|p l IH]; intros H; [reflexivity|]. cbn [map]. rewrite IH by (intros u q; exact (H (S u) q)).
  f_equal. specialize (H 0 p eq_refl). destruct p; try reflexivity. discriminate.
Qed.

(** once every waiting thread has left, the loop ends *)
Lemma loop_ends s t k : Leaving s t k -> (forall u q, nth_error (threads s) u = Some q -> weight q = 0) ->
  exists ls s', only_runs ls /\ steps s ls = Some s' /\ log s' = EvDone t k :: log s /\ nth_error (threads s') t = Some Idle.
Proof.
  intros Lv W. pose proof (lv_off _ _ _ Lv) as E.
  assert (M : mutex s = None).
  { destruct (mutex s) as [o|] eqn:M; [|reflexivity]. pose proof (lv_owned _ _ _ Lv o M) as B.
    destruct (nth_error (threads s) o) as [p|] eqn:Ho; [|apply nth_error_None in Ho; lia].
    destruct (inv_ok _ _ _ (lv_inv _ _ _ Lv) o p Ho) as (Hm & _). apply Hm in M. specialize (W o p Ho). destruct p; discriminate. }
  assert (Z : waiting s = 0).
  { rewrite (inv_count _ _ _ (lv_inv _ _ _ Lv)). apply count_zero. intros u q Hq. specialize (W u q Hq). pose proof (lv_awake _ _ _ Lv u q Hq).
    destruct q; try reflexivity; discriminate. }
  assert (K : k <> Kdisable /\ k <> Kenable).
  { destruct (lv_loop _ _ _ Lv) as [L|[L|L]]; destruct (inv_ok _ _ _ (lv_inv _ _ _ Lv) t _ L) as (_ & _ & H); cbn in H; tauto. }
  assert (Fin : forall s1, nth_error (threads s1) t = Some (BLoop k) -> mutex s1 = None -> waiting s1 = 0 -> enabled s1 = false -> log s1 = log s ->
    exists ls s', only_runs ls /\ steps s1 ls = Some s' /\ log s' = EvDone t k :: log s /\ nth_error (threads s') t = Some Idle).
  { intros s1 L M1 Z1 E1 G1. destruct k; [tauto|tauto| |].
    - exists [Run t 0], (finish t Kblocking s1). split; [intros l [<-|[]]; eauto|]. split.
      + cbn [Wait_model.steps Wait_model.step]. rewrite L. cbn [run]. rewrite Z1. reflexivity.
      + split; [cbn; rewrite G1; reflexivity|]. cbn. eapply nth_upd_same. exact L.
    - set (s2 := set_pc t (ETest Kstop) s1). set (s3 := set_pc t (EStore Kstop) s2).
      assert (T2 : nth_error (threads s2) t = Some (ETest Kstop)) by (cbn; eapply nth_upd_same; exact L).
      assert (T3 : nth_error (threads s3) t = Some (EStore Kstop)) by (cbn; eapply nth_upd_same; exact T2).
      exists [Run t 0; Run t 0; Run t 0], (finish t Kstop (set_enabled true s3)). split.
      + intros l [<-|[<-|[<-|[]]]]; eauto.
      + split.
        * cbn [Wait_model.steps Wait_model.step]. rewrite L. cbn [run]. rewrite Z1. fold s2. rewrite T2. cbn [run].
          change (enabled s2) with (enabled s1). rewrite E1. fold s3. rewrite T3. cbn [run]. change (mutex s3) with (mutex s1). rewrite M1. reflexivity.
        * split; [cbn; rewrite G1; reflexivity|]. cbn -[s3]. eapply nth_upd_same. exact T3. }
  assert (Note : forall s1, nth_error (threads s1) t = Some (BNotify k) -> mutex s1 = None -> waiting s1 = 0 -> enabled s1 = false -> log s1 = log s ->
    (forall u q, nth_error (threads s1) u = Some q -> asleep q = false) ->
    exists ls s', only_runs ls /\ steps s1 ls = Some s' /\ log s' = EvDone t k :: log s /\ nth_error (threads s') t = Some Idle).
  { intros s1 L M1 Z1 E1 G1 A1. set (s2 := notify_all Main (set_pc t (BLoop k) s1)).
    destruct (Fin s2) as (ls & s' & R & St & Q); [|exact M1|exact Z1|exact E1|exact G1|].
    - cbn [s2 notify_all set_threads set_pc threads]. rewrite nth_error_map, (nth_upd_same _ _ _ _ L). reflexivity.
    - exists (Run t 0 :: ls), s'. split; [intros l [<-|Hl]; [eauto|exact (R l Hl)]|]. split; [|exact Q].
      cbn [Wait_model.steps Wait_model.step]. rewrite L. cbn [run]. exact St. }
  destruct (lv_loop _ _ _ Lv) as [L|[L|L]].
  - apply Fin; try assumption. reflexivity.
  - set (s2 := set_pc t (BNotify k) s).
    destruct (Note s2) as (ls & s' & R & St & Q); [eapply nth_upd_same; exact L|exact M|exact Z|exact E|reflexivity| |].
    + intros u q Hq. cbn [s2 set_pc threads] in Hq. destruct (Nat.eq_dec t u) as [<-|N].
      * rewrite (nth_upd_same _ _ _ _ L) in Hq. injection Hq as <-. reflexivity.
      * rewrite nth_upd_other in Hq by exact N. exact (lv_awake _ _ _ Lv u q Hq).
    + exists (Run t 0 :: ls), s'. split; [intros l [<-|Hl]; [eauto|exact (R l Hl)]|]. split; [|exact Q].
      cbn [Wait_model.steps Wait_model.step]. rewrite L. cbn [run]. rewrite M. cbn [free]. exact St.
  - apply Note; try assumption; [reflexivity|]. exact (lv_awake _ _ _ Lv).
Qed.

Lemma leaving_returns : forall n s t k, total (threads s) <= n -> Leaving s t k ->
  exists ls s' lg, only_runs ls /\ steps s ls = Some s' /\ log s' = EvDone t k :: lg /\ nth_error (threads s') t = Some Idle.
Proof.
  induction n as [|n IH]; intros s t k B Lv.
  - destruct (loop_ends s t k Lv) as (ls & s' & Q1 & Q2 & Q3 & Q4); [|exists ls, s', (log s); tauto].
    intros u q Hq. pose proof (total_upd (threads s) u Idle q Hq). cbn [weight] in *. lia.
  - destruct (existsb (fun q => 0 <? weight q) (threads s)) eqn:X.
    + apply existsb_exists in X as (q & Hin & Hw). apply In_nth_error in Hin as (u & Hu). apply Nat.ltb_lt in Hw.
      destruct (leaving_step s t k Lv) as (v & s1 & St & Lv1 & D); [exists u, q; tauto|].
      destruct (IH s1 t k) as (ls & s' & lg & Q1 & Q2 & Q3); [lia|exact Lv1|].
      exists (Run v 0 :: ls), s', lg. split; [intros l [<-|Hl]; [eauto|exact (Q1 l Hl)]|]. split; [|exact Q3].
      cbn [Wait_model.steps]. rewrite St. exact Q2.
    + destruct (loop_ends s t k Lv) as (ls & s' & Q1 & Q2 & Q3 & Q4); [|exists ls, s', (log s); tauto].
      intros u q Hq. destruct (weight q) eqn:W; [reflexivity|]. exfalso.
      assert (Y : existsb (fun q => 0 <? weight q) (threads s) = true).
      { apply existsb_exists. exists q. split; [eapply nth_error_In; exact Hq|rewrite W; reflexivity]. }
      congruence.
Qed.

Lemma disable_returns_lemma : forall v en n s t p, reachable anything (init v en n) s ->
  nth_error (threads s) t = Some p -> in_disable_loop p = true ->
  (forall u q, nth_error (threads s) u = Some q -> sleeping Thr q = false) ->
  exists ls s' k lg, (forall l, In l ls -> exists u pick, l = Run u pick) /\ steps s ls = Some s' /\
    log s' = EvDone t k :: lg /\ nth_error (threads s') t = Some Idle.
Proof.
  intros v en n s t p R Hp Hl Hthr. destruct (loop_no_sleeper_lemma _ _ _ _ _ v en n s t p R Hp Hl) as [E A].
  assert (K : exists k, p = BLoop k \/ p = BMutex k \/ p = BNotify k) by (destruct p; try discriminate; eauto).
  destruct K as (k & K).
  destruct (leaving_returns (total (threads s)) s t k) as (ls & s' & lg & Q); [lia| |exists ls, s', k, lg; exact Q].
  constructor.
  - eapply reachable_inv. exact R.
  - eapply reachable_owned. exact R.
  - exact E.
  - intros u q Hq. specialize (A u q Hq). specialize (Hthr u q Hq). destruct q; try reflexivity.
    cbn in A, Hthr. destruct (w_cv w); discriminate.
  - rewrite Hp. destruct K as [-> | [-> | -> ]]; tauto.
Qed.
End Return.
