From Coq Require Import Lia.
From Verif Require Import Clock_model Clock_spec Wait_spec Wait_proofs.

Section Proofs.
Variables (V : Type) (above reached : V -> bool) (incr decr : V -> V).
Notation kstep := (kstep above reached incr decr).
Notation kreachable := (kreachable above reached incr decr).
Implicit Types (k : kstate V) (p q : pc V).

(** what a step makes of the waits; the other calls have no deadlines *)
Definition later (time : nat) p p' : Prop :=
  match p' with
  | WTest w dl => p = WCheck w /\ dl = match w_timeout w with 0 => None | ms => Some (time + ms) end \/ p = WWoken w dl false
  | WSleep w dl => p = WTest w dl
  | WWoken w dl false => p = WSleep w dl
  | WWoken w dl true => p = WSleep w dl /\ exists d, dl = Some d /\ d <= time
  | WFinal w dl => p = WWoken w dl true
  | WExit w dl false => p = WFinal w dl
  | WReason w dl false => p = WExit w dl false
  | WRet w Timeout => exists dl, p = WReason w dl false
  | _ => True
  end.

Lemma run_later t p pick s s' : nth_error (threads s) t = Some p -> run above reached incr decr t p pick s = Some s' ->
  now s' = now s /\ exists p', notified V (upd (threads s) t p') (threads s') /\ later (now s) p p'.
Proof.
  intros P H.
  assert (N1 : forall c x, notify_one c pick x = Some s' -> now s' = now x /\ notified V (threads x) (threads s')).
  { intros c x E. apply notified_one in E as (l' & -> & E & _). auto. }
  assert (Id : forall l, notified V l l) by apply notified_id.
  destruct p; cbn in H; try discriminate;
    try (destruct (free (mutex s)); [|discriminate]); try (destruct (free (status s)); [|discriminate]).
  - injection H as <-. split; [reflexivity|]. eexists. split; [apply Id|exact I].
  - destruct (negb (enabled s)); injection H as <-; (split; [reflexivity|]; eexists; split; [apply Id|]); [exact I|]. left. auto.
  - destruct (condition w s); injection H as <-; (split; [reflexivity|]; eexists; split; [apply Id|]); [exact I|]. reflexivity.
  - injection H as <-. split; [reflexivity|]. eexists. split; [apply Id|]. destruct timedout; cbn; auto.
  - injection H as <-. split; [reflexivity|]. eexists. split; [apply Id|]. destruct (condition w s); cbn; auto.
  - injection H as <-. split; [reflexivity|]. eexists. split; [apply Id|]. destruct finished; cbn; auto.
  - destruct (negb (enabled s)) eqn:En.
    + injection H as <-. split; [reflexivity|]. eexists. split; [apply Id|exact I].
    + destruct finished.
      * destruct (w_take w).
        -- unfold decrease in H. cbv zeta in H.
           repeat match type of H with (if ?c then _ else _) = _ => destruct c end.
           all: first [injection H as <-; split; [reflexivity|]; eexists; split; [first [apply notified_all|apply Id]|exact I]
                      |apply N1 in H as [H1 H2]; split; [exact H1|]; eexists; split; [exact H2|exact I]].
        -- injection H as <-. split; [reflexivity|]. eexists. split; [apply Id|exact I].
      * injection H as <-. split; [reflexivity|]. eexists. split; [apply Id|]. cbn. eauto.
  - injection H as <-. split; [reflexivity|]. eexists. split; [apply Id|exact I].
  - injection H as <-. split; [reflexivity|]. eexists. split; [apply Id|]. destruct notify; exact I.
  - injection H as <-. split; [reflexivity|]. eexists. split; [apply notified_all|exact I].
  - destruct (above _).
    + apply N1 in H as [H1 H2]. split; [exact H1|]. eexists. split; [exact H2|exact I].
    + injection H as <-. split; [reflexivity|]. eexists. split; [apply Id|exact I].
  - injection H as <-. split; [reflexivity|]. eexists. split; [apply Id|exact I].
  - injection H as <-. split; [reflexivity|]. eexists. split; [apply Id|]. destruct k; exact I.
  - injection H as <-. split; [reflexivity|]. eexists. split; [apply Id|]. destruct (enabled s); exact I.
  - destruct (enabled s); [|unfold after_disable in H; destruct k]; injection H as <-; (split; [reflexivity|]; eexists; split; [apply Id|exact I]).
  - injection H as <-. split; [reflexivity|]. eexists. split; [apply Id|exact I].
  - injection H as <-. unfold after_disable. destruct k; (split; [reflexivity|]; eexists; split; [apply notified_all|exact I]).
  - destruct (waiting s); [destruct k|]; injection H as <-; (split; [reflexivity|]; eexists; split; [apply Id|exact I]).
  - injection H as <-. split; [reflexivity|]. eexists. split; [apply Id|exact I].
  - injection H as <-. split; [reflexivity|]. eexists. split; [apply notified_all|exact I].
  - destruct (enabled s); injection H as <-; (split; [reflexivity|]; eexists; split; [apply Id|exact I]).
  - injection H as <-. split; [reflexivity|]. eexists. split; [apply Id|exact I].
Qed.

Lemma nth_upd2 {A} (l : list A) i j x y : nth_error (upd l i x) j = Some y -> (j = i /\ y = x) \/ (j <> i /\ nth_error l j = Some y).
Proof.
  intro H. destruct (PeanoNat.Nat.eq_dec i j) as [<-|D].
  - left. split; [reflexivity|]. destruct (nth_error l i) as [z|] eqn:E; [rewrite (nth_upd_same _ _ _ _ E) in H; congruence|].
    apply nth_error_None in E. assert (G : nth_error (upd l i x) i = None) by (apply nth_error_None; rewrite upd_length; exact E). congruence.
  - right. rewrite nth_upd_other in H by exact D. split; congruence.
Qed.

(** an invariant of each thread, of the times it has begun and read the clock *)
Section Inv.
Variable ok : nat -> nat -> nat -> nat -> pc V -> Prop.   (* real, now, began, asked *)
Variable allowed : kstate V -> klabel V -> Prop.
Hypothesis ok_wake : forall r n b a w dl, ok r n b a (WSleep w dl) -> ok r n b a (WWoken w dl false).
Hypothesis ok_later : forall r n b a p p', ok r n b a p -> later n p p' -> (forall w, p <> WCheck w) -> ok r n b a p'.
Hypothesis ok_check : forall r n b a w p', ok r n b a (WCheck w) -> later n (WCheck w) p' -> ok r n b r p'.
Hypothesis ok_call : forall r n b a o, ok r n b a Idle -> ok r n r a (start above reached o n).
Hypothesis ok_tick : forall r n b a p, ok r n b a p -> ok (r + 1) (n + 1) b a p.
Hypothesis ok_set : forall k n, allowed k (KSet n) -> forall b a p, ok (real k) (now (handler k)) b a p -> ok (real k) n b a p.
Hypothesis ok_init : ok 0 0 0 0 Idle.

Definition KI k : Prop := length (began k) = length (threads (handler k)) /\ length (asked k) = length (threads (handler k)) /\
  forall t p b a, nth_error (threads (handler k)) t = Some p -> nth_error (began k) t = Some b -> nth_error (asked k) t = Some a ->
    ok (real k) (now (handler k)) b a p.

Lemma ki_init v en n : KI (kinit v en n).
Proof.
  split; [cbn; rewrite !repeat_length; reflexivity|]. split; [cbn; rewrite !repeat_length; reflexivity|]. cbn. intros t p b a H B A.
  apply nth_repeat in H as ->. apply nth_repeat in B as ->. apply nth_repeat in A as ->. exact ok_init.
Qed.

Lemma ki_step k l k' : KI k -> allowed k l -> kstep k l = Some k' -> KI k'.
Proof.
  intros (LB & LA & K) Al H. destruct l as [l|time]; cbn in H.
  2:{ injection H as <-. split; [exact LB|]. split; [exact LA|]. cbn. intros t p b a P B A. eapply ok_set; eauto. }
  destruct (step above reached incr decr (handler k) l) as [h|] eqn:E; [|discriminate]. injection H as <-.
  unfold KI. destruct l as [t o|t pick|t|t|]; cbn in E; cbn [handler real began asked].
  - destruct (nth_error (threads (handler k)) t) as [p|] eqn:P; [|discriminate]. destruct p; try discriminate. injection E as <-.
    split; [cbn; rewrite !upd_length; exact LB|]. split; [cbn; rewrite !upd_length; exact LA|]. cbn. intros u q b a Q B A.
    apply nth_upd2 in Q as [[-> ->]|[N Q]].
    + apply nth_upd2 in B as [[_ ->]|[N _]]; [|congruence].
      destruct (nth_error (began k) t) as [b|] eqn:B; [eapply ok_call; eauto|]. apply nth_error_None in B. rewrite LB in B. apply nth_error_None in B. congruence.
    + rewrite nth_upd_other in B by congruence. eauto.
  - destruct (nth_error (threads (handler k)) t) as [p|] eqn:P; [|discriminate].
    destruct (run_later _ _ _ _ _ P E) as (Nw & p' & (L1 & _ & L2 & _) & La). rewrite upd_length in L1.
    split; [rewrite L1; exact LB|]. split; [rewrite L1; destruct p; rewrite ?upd_length; exact LA|].
    intros u q b a Q B A. rewrite Nw. apply L2 in Q as (q0 & Q & W).
    assert (O : ok (real k) (now (handler k)) b a q0).
    { apply nth_upd2 in Q as [[-> ->]|[N Q]].
      - destruct (nth_error (asked k) t) as [a0|] eqn:A0.
        2:{ apply nth_error_None in A0. rewrite LA in A0. apply nth_error_None in A0. congruence. }
        pose proof (K _ _ _ _ P B A0) as O.
        destruct p; try (rewrite A0 in A; injection A as <-; eapply ok_later; [exact O|exact La|discriminate]).
        rewrite (nth_upd_same _ _ _ _ A0) in A. injection A as <-. eapply ok_check; eauto.
      - apply (K u); auto. destruct p; try exact A. rewrite nth_upd_other in A by congruence. exact A. }
    destruct W as [->|(c & Sl & ->)]; [exact O|]. destruct q0; try discriminate. cbn in *. rewrite Sl. apply ok_wake. exact O.
  - destruct (nth_error (threads (handler k)) t) as [p|] eqn:P; [|discriminate]. destruct p; try discriminate. injection E as <-.
    split; [cbn; rewrite !upd_length; exact LB|]. split; [cbn; rewrite !upd_length; exact LA|]. cbn. intros u q b a Q B A.
    apply nth_upd2 in Q as [[-> ->]|[N Q]]; [|eauto]. apply ok_wake. eauto.
  - destruct (nth_error (threads (handler k)) t) as [p|] eqn:P; [|discriminate]. destruct p as [| | | |w dl| | | | | | | | | | | | | | | | | | |]; try discriminate. destruct dl as [d|]; [|discriminate].
    destruct (d <=? now (handler k)) eqn:D; [|discriminate]. apply PeanoNat.Nat.leb_le in D. injection E as <-.
    split; [cbn; rewrite !upd_length; exact LB|]. split; [cbn; rewrite !upd_length; exact LA|]. cbn. intros u q b a Q B A.
    apply nth_upd2 in Q as [[-> ->]|[N Q]]; [|eauto]. eapply ok_later; [exact (K _ _ _ _ P B A)| |discriminate]. cbn. eauto.
  - injection E as <-. split; [exact LB|]. split; [exact LA|]. cbn. intros u q b a Q B A. apply ok_tick. eauto.
Qed.

Lemma ki_reach v en n k : kreachable allowed (kinit v en n) k -> KI k.
Proof. induction 1; [apply ki_init|eapply ki_step; eassumption]. Qed.
End Inv.

(** not early *)
Definition early_ok (r n b a : nat) p : Prop := b <= r /\
  match p with
  | WTest w (Some d) | WSleep w (Some d) | WWoken w (Some d) false => b + w_timeout w + n <= r + d
  | WWoken w _ true | WFinal w _ | WExit w _ false | WReason w _ false | WRet w Timeout => b + w_timeout w <= r
  | _ => True
  end.

Ltac crush := repeat match goal with
  | H : _ /\ _ |- _ => destruct H
  | H : exists _, _ |- _ => destruct H
  | H : _ \/ _ |- _ => destruct H
  | _ => progress subst
  | _ => discriminate
  end.

Lemma early_inv v en n k : kreachable not_forward (kinit v en n) k -> KI early_ok k.
Proof.
  apply ki_reach; unfold early_ok.
  - intros r nw b a w dl H. exact H.
  - intros r nw b a p p' [H1 H2] L N. split; [exact H1|].
    destruct p'; try exact I; cbn in L.
    + destruct L as [[-> _]| ->]; [destruct (N _ eq_refl)|exact H2].
    + subst. exact H2.
    + destruct timedout; [|subst; exact H2]. destruct L as (-> & d & -> & D). lia.
    + subst. destruct dl; exact H2.
    + destruct finished; [exact I|]. subst. exact H2.
    + destruct finished; [exact I|]. subst. exact H2.
    + destruct r0; try exact I. destruct L as [dl ->]. exact H2.
  - intros r nw b a w p' [H1 _] L. split; [exact H1|].
    destruct p'; try exact I; cbn in L; crush; try exact I.
    + destruct (w_timeout w0) eqn:T; [exact I|]. lia.
    + destruct timedout; crush; discriminate.
    + destruct finished; crush; try exact I; discriminate.
    + destruct finished; crush; try exact I; discriminate.
    + destruct r0; crush; try exact I; discriminate.
  - intros r nw b a o _. split; [lia|]. destruct o; exact I.
  - intros r nw b a p [H1 H2]. split; [lia|]. destruct p; auto; try destruct dl; try destruct timedout; try destruct finished; try destruct r0; auto; lia.
  - intros k0 nw Al b a p [H1 H2]. cbn in Al. split; [exact H1|]. destruct p; auto; try destruct dl; try destruct timedout; auto; lia.
  - split; [lia|exact I].
Qed.

Lemma early_lemma v en n k l k' t w : kreachable not_forward (kinit v en n) k -> kstep k l = Some k' ->
  log (handler k') = EvReturn t w Timeout :: log (handler k) -> exists b, nth_error (began k) t = Some b /\ b + w_timeout w <= real k.
Proof.
  intros R H L. apply early_inv in R as (LB & LA & K). destruct l as [l|time]; cbn in H.
  2:{ injection H as <-. cbn in L. exfalso. eapply cons_neq. symmetry. exact L. }
  destruct (step above reached incr decr (handler k) l) as [h|] eqn:E; [|discriminate]. injection H as <-. cbn in L.
  destruct (step_event _ _ _ _ _ _ _ _ _ E L) as (u & pick & p & -> & Hp & E'). pose proof (run_event _ _ _ _ _ _ _ _ _ _ _ E' L) as [-> ->].
  destruct (nth_error (began k) u) as [b|] eqn:B.
  2:{ apply nth_error_None in B. rewrite LB in B. apply nth_error_None in B. congruence. }
  destruct (nth_error (asked k) u) as [a|] eqn:A.
  2:{ apply nth_error_None in A. rewrite LA in A. apply nth_error_None in A. congruence. }
  exists b. split; [reflexivity|]. apply (K _ _ _ _ Hp B A).
Qed.

(** not late *)
Definition late_ok (r n b a : nat) p : Prop :=
  match p with
  | WTest w dl | WSleep w dl | WWoken w dl false => w_timeout w <> 0 -> exists d, dl = Some d /\ d + r <= a + w_timeout w + n
  | _ => True
  end.
Lemma late_inv v en n k : kreachable not_back (kinit v en n) k -> KI late_ok k.
Proof.
  apply ki_reach; unfold late_ok.
  - intros r nw b a w dl H. exact H.
  - intros r nw b a p p' H L N. destruct p'; try exact I; cbn in L.
    + destruct L as [[-> _]| ->]; [destruct (N _ eq_refl)|exact H].
    + subst. exact H.
    + destruct timedout; [exact I|subst; exact H].
  - intros r nw b a w p' _ L. destruct p'; try exact I; cbn in L; crush.
    + intro T. destruct (w_timeout w0) as [|m] eqn:Tm; [congruence|]. eexists. split; [reflexivity|]. lia.
    + destruct timedout; crush; exact I.
  - intros r nw b a o _. destruct o; exact I.
  - intros r nw b a p H. destruct p; auto; try destruct timedout; auto; intro T; destruct (H T) as (d & -> & D); exists d; (split; [reflexivity|lia]).
  - intros k0 nw Al b a p H. cbn in Al. destruct p; auto; try destruct timedout; auto; intro T; destruct (H T) as (d & -> & D); exists d; (split; [reflexivity|lia]).
  - exact I.
Qed.
Lemma late_lemma v en n k t w dl a : kreachable not_back (kinit v en n) k -> nth_error (threads (handler k)) t = Some (WSleep w dl) -> w_timeout w <> 0 ->
  nth_error (asked k) t = Some a -> a + w_timeout w <= real k -> exists k', kstep k (KStep (Expire t)) = Some k'.
Proof.
  intros R P T A D. apply late_inv in R as (LB & LA & K).
  destruct (nth_error (began k) t) as [b|] eqn:B.
  2:{ apply nth_error_None in B. rewrite LB in B. apply nth_error_None in B. congruence. }
  destruct (K _ _ _ _ P B A T) as (d & -> & Hd). cbn. rewrite P. replace (d <=? now (handler k)) with true; [eauto|]. symmetry. apply PeanoNat.Nat.leb_le. lia.
Qed.
End Proofs.
