From Coq Require Import List Bool Arith NArith Lia.
From Verif Require Import Wait_model Wait_spec.
Import ListNotations.

(** ** Lists of threads *)
Lemma upd_length {A} (l : list A) i x : length (upd l i x) = length l.
Proof. revert i. induction l as [|y l IH]; intros [|i]; cbn; [reflexivity..|]. rewrite IH. reflexivity. Qed.

Lemma nth_upd_same {A} (l : list A) i x y : nth_error l i = Some y -> nth_error (upd l i x) i = Some x.
Proof. revert i. induction l as [|z l IH]; intros [|i] H; cbn in *; try discriminate; [reflexivity|]. exact (IH i H). Qed.

Lemma nth_upd_other {A} (l : list A) i j x : i <> j -> nth_error (upd l i x) j = nth_error l j.
Proof.
  revert i j. induction l as [|z l IH]; intros [|i] [|j] H; cbn; try reflexivity; try lia. apply IH. lia.
Qed.

Definition b2n (b : bool) : nat := if b then 1 else 0.
Definition count {A} (f : A -> bool) (l : list A) : nat := length (filter f l).

Lemma count_cons {A} f (x : A) l : count f (x :: l) = b2n (f x) + count f l.
Proof. unfold count. cbn [filter]. destruct (f x); reflexivity. Qed.

Lemma count_upd {A} (f : A -> bool) : forall l i x y, nth_error l i = Some y ->
  count f (upd l i x) + b2n (f y) = count f l + b2n (f x).
Proof.
  induction l as [|z l IH]; intros [|i] x y H; cbn [nth_error upd] in *; try discriminate.
  - injection H as ->. rewrite !count_cons. lia.
  - rewrite !count_cons. specialize (IH i x y H). lia.
Qed.

Lemma count_map {A} (f : A -> bool) g : (forall x, f (g x) = f x) -> forall l, count f (map g l) = count f l.
Proof. intros H. induction l as [|x l IH]; [reflexivity|]. cbn [map]. rewrite !count_cons, H, IH. reflexivity. Qed.

Lemma count_pos {A} (f : A -> bool) l i x : nth_error l i = Some x -> f x = true -> 0 < count f l.
Proof.
  revert i. induction l as [|z l IH]; intros [|i] H Hf; cbn [nth_error] in H; try discriminate; rewrite count_cons.
  - injection H as ->. rewrite Hf. cbn. lia.
  - specialize (IH i H Hf). lia.
Qed.

Lemma count_zero {A} (f : A -> bool) l : count f l = 0 <-> forall i x, nth_error l i = Some x -> f x = false.
Proof.
  split.
  - intros H i x Hi. destruct (f x) eqn:E; [|reflexivity]. pose proof (count_pos f l i x Hi E). lia.
  - induction l as [|z l IH]; intros H; [reflexivity|]. rewrite count_cons. rewrite (H 0 z eq_refl).
    rewrite IH; [reflexivity|]. intros i x Hi. exact (H (S i) x Hi).
Qed.

Lemma nth_repeat {A} (x : A) n i y : nth_error (repeat x n) i = Some y -> y = x.
Proof. revert i. induction n as [|n IH]; intros [|i] H; cbn in H; try discriminate; [congruence|exact (IH i H)]. Qed.

Lemma count_repeat {A} (f : A -> bool) x n : f x = false -> count f (repeat x n) = 0.
Proof. intros H. apply count_zero. intros i y Hi. apply nth_repeat in Hi as ->. exact H. Qed.

Section Proofs.
Variables (V : Type) (above reached : V -> bool) (incr decr : V -> V).
Implicit Types (s : state V) (p q : pc V).
Notation step := (step above reached incr decr).
Notation reachable := (reachable above reached incr decr).

Definition counted p := blocked_in_wait p.
Definition holds_mutex p : bool :=
  match p with WCheck _ | WTest _ _ | WFinal _ _ | WExit _ _ _ | WReason _ _ _ | WRet _ _ => true | _ => false end.
Definition holds_status p : bool :=
  match p with
  | STest | DTest _ | DStore _ | DNotify _ | BLoop _ | BMutex _ | BNotify _ | ETest _ | EStore _ => true
  | _ => false
  end.

Definition dl_ok (w : wait_call V) (dl : option nat) : Prop :=
  match dl with None => w_timeout w = 0 | Some d => w_timeout w <> 0 /\ w_start w + w_timeout w <= d end.
Definition passed (s : state V) (dl : option nat) : Prop := exists d, dl = Some d /\ d <= now s.

Definition result_ok s (w : wait_call V) (r : reason) : Prop :=
  match r with
  | Disabled => enabled s = false
  | Timeout => enabled s = true /\ w_pred w (value s) = false /\ w_timeout w <> 0 /\ w_start w + w_timeout w <= now s
  | ConditionMet => enabled s = true /\ exists v, w_pred w v = true /\ value s = if w_take w then decr v else v
  end.

Definition local s p : Prop :=
  match p with
  | WLock w | WCheck w => w_start w <= now s
  | WRet w r => result_ok s w r
  | WTest w dl | WSleep w dl => dl_ok w dl
  | WWoken w dl timedout => dl_ok w dl /\ (timedout = true -> passed s dl)
  | WFinal w dl => dl_ok w dl /\ passed s dl
  | WExit w dl fin | WReason w dl fin => dl_ok w dl /\ condition w s = fin /\ (fin = false -> passed s dl)
  | DStore k => enabled s = true /\ k <> Kenable
  | DNotify k => enabled s = false /\ k <> Kenable
  | BLoop k | BMutex k | BNotify k => enabled s = false /\ k <> Kdisable /\ k <> Kenable
  | EStore k => enabled s = false /\ k <> Kblocking /\ k <> Kdisable
  | DTest k => k <> Kenable
  | ETest k => k <> Kblocking /\ k <> Kdisable
  | _ => True
  end.

Definition ok s (t : nat) p : Prop :=
  (holds_mutex p = true <-> mutex s = Some t) /\ (holds_status p = true <-> status s = Some t) /\ local s p.

(** nobody sleeps while disabled, but for the time between disabling and notifying *)
Definition sleepers_ok s : Prop :=
  enabled s = false -> (exists t k, nth_error (threads s) t = Some (DNotify k)) \/
  forall t p, nth_error (threads s) t = Some p -> sleeping Main p = false.

Record Inv s : Prop := {
  inv_ok : forall t p, nth_error (threads s) t = Some p -> ok s t p;
  inv_count : waiting s = count counted (threads s);
  inv_sleep : sleepers_ok s }.

(** *** Notifications *)
Definition woken p q : Prop := q = p \/ exists c, sleeping c p = true /\ q = wake c p.

Lemma wake_id c p : sleeping c p = false -> wake c p = p.
Proof. destruct p; try reflexivity. cbn. intros ->. reflexivity. Qed.

Lemma wake_woken c p : woken p (wake c p).
Proof. destruct (sleeping c p) eqn:E; [right; exists c; split; [exact E|reflexivity]|left; apply wake_id; exact E]. Qed.

Lemma woken_counted p q : woken p q -> counted q = counted p.
Proof. intros [->|(c & H & ->)]; [reflexivity|]. destruct p; try discriminate. cbn in *. rewrite H. reflexivity. Qed.

Lemma woken_awake p q : woken p q -> (forall w dl, p <> WSleep w dl) -> q = p.
Proof. intros [->|(c & H & ->)] N; [reflexivity|]. destruct p; try discriminate. exfalso. exact (N _ _ eq_refl). Qed.

Definition notified (l l' : list (pc V)) : Prop :=
  length l' = length l /\ count counted l' = count counted l /\
  (forall u q, nth_error l' u = Some q -> exists p, nth_error l u = Some p /\ woken p q) /\
  (forall u p, nth_error l u = Some p -> exists q, nth_error l' u = Some q /\ woken p q).

Lemma notified_id l : notified l l.
Proof. split; [reflexivity|]. split; [reflexivity|]. split; intros u p H; exists p; (split; [exact H|left; reflexivity]). Qed.

Lemma notified_all c l : notified l (map (wake c) l).
Proof.
  split; [apply map_length|]. split.
  - apply count_map. intros p. apply woken_counted. apply wake_woken.
  - split; intros u p H.
    + rewrite nth_error_map in H. destruct (nth_error l u) as [q|]; [|discriminate]. injection H as <-. exists q. split; [reflexivity|apply wake_woken].
    + exists (wake c p). rewrite nth_error_map, H. split; [reflexivity|apply wake_woken].
Qed.

Lemma notified_one c s pick s' : notify_one c pick s = Some s' ->
  exists l', s' = set_threads l' s /\ notified (threads s) l' /\
  ((forall t p, nth_error (threads s) t = Some p -> sleeping c p = false) /\ l' = threads s \/
   exists p, nth_error (threads s) pick = Some p /\ sleeping c p = true /\ l' = upd (threads s) pick (wake c p)).
Proof.
  unfold notify_one. destruct (existsb (sleeping c) (threads s)) eqn:E.
  - destruct (nth_error (threads s) pick) as [p|] eqn:Ep; [|discriminate]. destruct (sleeping c p) eqn:Es; [|discriminate].
    intros H. injection H as <-. exists (upd (threads s) pick (wake c p)). split; [reflexivity|]. split.
    + split; [apply upd_length|]. split.
      * pose proof (count_upd counted (threads s) pick (wake c p) p Ep) as H. rewrite (woken_counted p _ (wake_woken c p)) in H. lia.
      * split; intros u q H; destruct (Nat.eq_dec pick u) as [<-|N].
        -- rewrite (nth_upd_same _ _ _ p) in H by exact Ep. injection H as <-. exists p. split; [exact Ep|apply wake_woken].
        -- rewrite nth_upd_other in H by exact N. exists q. split; [exact H|left; reflexivity].
        -- exists (wake c p). rewrite (nth_upd_same _ _ _ p) by exact Ep. split; [reflexivity|]. rewrite H in Ep. injection Ep as <-. apply wake_woken.
        -- exists q. rewrite nth_upd_other by exact N. split; [exact H|left; reflexivity].
    + right. exists p. split; [reflexivity|]. split; [exact Es|reflexivity].
  - intros H. injection H as <-. exists (threads s). split; [destruct s; reflexivity|]. split; [apply notified_id|]. left. split; [|reflexivity].
    intros t p Hp. destruct (sleeping c p) eqn:Es; [|reflexivity]. exfalso.
    assert (X : existsb (sleeping c) (threads s) = true) by (apply existsb_exists; exists p; split; [eapply nth_error_In; exact Hp|exact Es]).
    congruence.
Qed.

(** *** The shape of a step *)

(** [t] goes from [p] to [p'], others are at most woken *)
Record moved s s' (t : nat) p p' : Prop := {
  mv_at : nth_error (threads s) t = Some p;
  mv_thr : notified (upd (threads s) t p') (threads s');
  mv_self : nth_error (threads s') t = Some p';
  mv_now : now s <= now s';
  mv_mutex : forall u, u <> t -> (mutex s = Some u <-> mutex s' = Some u);
  mv_status : forall u, u <> t -> (status s = Some u <-> status s' = Some u);
  mv_data : (value s' = value s /\ enabled s' = enabled s) \/ mutex s = None \/ mutex s = Some t;
  mv_en : enabled s' = enabled s \/ status s = Some t }.

Lemma condition_same (w : wait_call V) s s' : value s' = value s -> enabled s' = enabled s -> condition w s' = condition w s.
Proof. unfold condition. intros -> ->. reflexivity. Qed.

Lemma passed_mono s s' dl : now s <= now s' -> passed s dl -> passed s' dl.
Proof. intros H (d & E & L). exists d. split; [exact E|lia]. Qed.

Lemma other_ok s s' t p p' u q q' : moved s s' t p p' -> u <> t -> ok s u q -> woken q q' -> ok s' u q'.
Proof.
  intros M Hne (Hm & Hs & Hl) W. destruct M as [_ _ _ Mn Mm Ms Md Me]. specialize (Mm u Hne). specialize (Ms u Hne).
  assert (HM : holds_mutex q = true -> value s' = value s /\ enabled s' = enabled s).
  { intros H. apply Hm in H. destruct Md as [H'|[H'|H']]; [exact H'|congruence|congruence]. }
  assert (HS : holds_status q = true -> enabled s' = enabled s).
  { intros H. apply Hs in H. destruct Me as [H'|H']; [exact H'|congruence]. }
  destruct W as [->|(c & Hc & ->)].
  - split; [rewrite Hm; exact Mm|]. split; [rewrite Hs; exact Ms|].
    destruct q; cbn [local holds_mutex holds_status] in *; try exact Hl; try exact I;
      try (specialize (HS eq_refl); rewrite HS; exact Hl); try lia.
    + destruct Hl as [H1 H2]. split; [exact H1|]. intros H. eapply passed_mono; [exact Mn|exact (H2 H)].
    + destruct Hl as [H1 H2]. split; [exact H1|]. eapply passed_mono; [exact Mn|exact H2].
    + destruct Hl as (H1 & H2 & H3). destruct (HM eq_refl) as [Ev Ee]. split; [exact H1|]. rewrite (condition_same w s s' Ev Ee). split; [exact H2|].
      intros H. eapply passed_mono; [exact Mn|exact (H3 H)].
    + destruct Hl as (H1 & H2 & H3). destruct (HM eq_refl) as [Ev Ee]. split; [exact H1|]. rewrite (condition_same w s s' Ev Ee). split; [exact H2|].
      intros H. eapply passed_mono; [exact Mn|exact (H3 H)].
    + destruct (HM eq_refl) as [Ev Ee]. unfold result_ok in *. destruct r; rewrite ?Ee, ?Ev; [exact Hl|intuition lia|exact Hl].
  - destruct q; try discriminate. cbn [sleeping] in Hc. cbn [wake]. rewrite Hc. cbn [holds_mutex holds_status local] in *.
    split; [rewrite Hm; exact Mm|]. split; [rewrite Hs; exact Ms|]. split; [exact Hl|discriminate].
Qed.

Lemma moved_ok s s' t p p' : Inv s -> moved s s' t p p' -> ok s' t p' ->
  (forall u q, nth_error (threads s') u = Some q -> ok s' u q).
Proof.
  intros I M Hok u q Hq. destruct (Nat.eq_dec u t) as [->|N].
  - rewrite (mv_self _ _ _ _ _ M) in Hq. injection Hq as <-. exact Hok.
  - destruct (mv_thr _ _ _ _ _ M) as (_ & _ & H & _). destruct (H u q Hq) as (q0 & H0 & W). rewrite nth_upd_other in H0 by congruence.
    eapply other_ok; [exact M|exact N|exact (inv_ok _ I u q0 H0)|exact W].
Qed.

Lemma moved_count s s' t p p' : Inv s -> moved s s' t p p' ->
  waiting s' + b2n (counted p) = waiting s + b2n (counted p') -> waiting s' = count counted (threads s').
Proof.
  intros I M H. destruct (mv_thr _ _ _ _ _ M) as (_ & Hc & _). rewrite Hc.
  pose proof (count_upd counted (threads s) t p' p (mv_at _ _ _ _ _ M)) as H'. rewrite <- (inv_count _ I) in H'. lia.
Qed.

Lemma moved_sleep s s' t p p' : Inv s -> moved s s' t p p' -> enabled s' = enabled s ->
  (sleeping Main p' = true -> enabled s = true) -> (forall k, p <> DNotify k) -> sleepers_ok s'.
Proof.
  intros I M He Hp' Hp Hd. rewrite He in Hd. destruct (mv_thr _ _ _ _ _ M) as (_ & _ & H1 & H2).
  destruct (inv_sleep _ I Hd) as [(u & k & Hu)|Hn].
  - left. exists u, k. assert (N : t <> u). { intros ->. rewrite (mv_at _ _ _ _ _ M) in Hu. injection Hu as ->. exact (Hp k eq_refl). }
    destruct (H2 u (DNotify k)) as (q & Hq & W); [rewrite nth_upd_other by exact N; exact Hu|].
    apply woken_awake in W; [|discriminate]. subst q. exact Hq.
  - right. intros u q Hq. destruct (Nat.eq_dec u t) as [->|N].
    + rewrite (mv_self _ _ _ _ _ M) in Hq. injection Hq as <-. destruct (sleeping Main p') eqn:E; [|reflexivity]. specialize (Hp' eq_refl). congruence.
    + destruct (H1 u q Hq) as (q0 & H0 & W). rewrite nth_upd_other in H0 by congruence. specialize (Hn u q0 H0).
      destruct W as [->|(c & Hc & ->)]; [exact Hn|]. destruct q0; try discriminate. cbn in *. rewrite Hc. reflexivity.
Qed.

Definition effect s s' (t : nat) p p' : Prop :=
  now s <= now s' /\
  (forall u, u <> t -> (mutex s = Some u <-> mutex s' = Some u)) /\
  (forall u, u <> t -> (status s = Some u <-> status s' = Some u)) /\
  ((value s' = value s /\ enabled s' = enabled s) \/ mutex s = None \/ mutex s = Some t) /\
  (enabled s' = enabled s \/ status s = Some t).

Lemma moved_simple s s' t p p' : nth_error (threads s) t = Some p -> threads s' = upd (threads s) t p' ->
  effect s s' t p p' -> moved s s' t p p'.
Proof.
  intros Hp Ht (H1 & H2 & H3 & H4 & H5). constructor; try assumption.
  - rewrite Ht. apply notified_id.
  - rewrite Ht. eapply nth_upd_same. exact Hp.
Qed.

Lemma moved_all c s s' t p p' : nth_error (threads s) t = Some p -> threads s' = map (wake c) (upd (threads s) t p') ->
  sleeping c p' = false -> effect s s' t p p' -> moved s s' t p p'.
Proof.
  intros Hp Ht Hs (H1 & H2 & H3 & H4 & H5). constructor; try assumption.
  - rewrite Ht. apply notified_all.
  - rewrite Ht, nth_error_map. rewrite (nth_upd_same _ _ _ p) by exact Hp. cbn [option_map]. rewrite wake_id by exact Hs. reflexivity.
Qed.

Lemma moved_one c pick s s1 s' t p p' : nth_error (threads s) t = Some p -> threads s1 = upd (threads s) t p' ->
  sleeping c p' = false -> notify_one c pick s1 = Some s' -> effect s s1 t p p' -> moved s s' t p p'.
Proof.
  intros Hp Ht Hs N (H1 & H2 & H3 & H4 & H5). apply notified_one in N as (l' & -> & Hn & Hc). constructor; try assumption.
  - cbn [threads set_threads]. rewrite <- Ht. exact Hn.
  - cbn [threads set_threads]. destruct Hc as [[_ ->]|(q & Hq & Hqs & ->)].
    + rewrite Ht. eapply nth_upd_same. exact Hp.
    + rewrite Ht in *. destruct (Nat.eq_dec pick t) as [->|Ne].
      * rewrite (nth_upd_same _ _ _ p) in Hq by exact Hp. injection Hq as <-. congruence.
      * rewrite nth_upd_other by exact Ne. eapply nth_upd_same. exact Hp.
Qed.

Lemma notify_one_fields c pick s s' : notify_one c pick s = Some s' ->
  value s' = value s /\ enabled s' = enabled s /\ waiting s' = waiting s /\ mutex s' = mutex s /\ status s' = status s /\ now s' = now s /\ log s' = log s.
Proof. intros H. apply notified_one in H as (l' & -> & _). repeat split. Qed.

Lemma free_none (m : option nat) : free m = true <-> m = None.
Proof. destruct m; cbn; split; congruence. Qed.

Ltac fields := cbn [value enabled waiting mutex status threads now log set_pc set_threads set_mutex set_status set_val set_enabled set_waiting set_now emit finish notify_all] in *.

Ltac eff := split; [fields; lia|split; [fields; intros u Hu; split; congruence|split; [fields; intros u Hu; split; congruence|split; [fields; first [left; split; reflexivity|right; tauto]|fields; first [left; reflexivity|right; tauto]]]]].

Ltac okk := split; [cbn [holds_mutex]; fields; split; congruence|split; [cbn [holds_status]; fields; split; congruence|cbn [local]; fields]].

Definition good s s' : Prop := exists t p p', moved s s' t p p' /\ ok s' t p' /\
  waiting s' + b2n (counted p) = waiting s + b2n (counted p') /\ sleepers_ok s'.

Lemma good_simple s s' t p p' : Inv s -> nth_error (threads s) t = Some p -> threads s' = upd (threads s) t p' ->
  effect s s' t p p' -> ok s' t p' -> waiting s' + b2n (counted p) = waiting s + b2n (counted p') ->
  enabled s' = enabled s -> (sleeping Main p' = true -> enabled s = true) -> (forall k, p <> DNotify k) -> good s s'.
Proof.
  intros I Hp Ht He Ho Hc E1 E2 E3. exists t, p, p'. assert (M : moved s s' t p p') by (apply moved_simple; assumption).
  split; [exact M|]. split; [exact Ho|]. split; [exact Hc|]. eapply moved_sleep; eassumption.
Qed.

Ltac simple I Hp := eapply good_simple; [exact I|exact Hp|reflexivity|eff|okk|cbn; lia|reflexivity|cbn; try discriminate|discriminate].

Lemma all_awake l c u q : nth_error (map (@wake V c) l) u = Some q -> sleeping c q = false.
Proof.
  rewrite nth_error_map. destruct (nth_error l u) as [p|]; [|discriminate]. intros H. injection H as <-.
  destruct p; try reflexivity. cbn [wake sleeping]. destruct (cv_eqb (w_cv w) c) eqn:E; [reflexivity|exact E].
Qed.

Lemma run_good s t p pick s' : Inv s -> nth_error (threads s) t = Some p -> run above reached incr decr t p pick s = Some s' -> good s s'.
Proof.
  intros I Hp. pose proof (inv_ok _ I t p Hp) as (Hm & Hs & Hl). pose proof (inv_count _ I) as Hc.
  pose proof (count_pos counted (threads s) t p Hp) as Hcp. rewrite <- Hc in Hcp.
  destruct p; cbn [run]; cbn [holds_mutex holds_status local] in Hm, Hs, Hl; intros E;
    (first [assert (Hm1 : mutex s = Some t) by (apply Hm; reflexivity)|assert (Hm1 : mutex s <> Some t) by (intros X; apply Hm in X; discriminate)]);
    (first [assert (Hs1 : status s = Some t) by (apply Hs; reflexivity)|assert (Hs1 : status s <> Some t) by (intros X; apply Hs in X; discriminate)]).
  - discriminate.
  - destruct (free (mutex s)) eqn:F; [|discriminate]. apply free_none in F. injection E as <-. simple I Hp. exact Hl.
  - destruct (enabled s) eqn:En; cbn [negb] in E; injection E as <-; simple I Hp.
    + unfold dl_ok. destruct (w_timeout w); [reflexivity|]. split; [discriminate|lia].
    + exact En.
  - destruct (condition w s) eqn:Ec; injection E as <-; simple I Hp.
    + split; [exact Hl|]. split; [rewrite <- Ec; reflexivity|discriminate].
    + exact Hl.
    + intros _. unfold condition in Ec. destruct (enabled s); [reflexivity|discriminate].
  - discriminate.
  - destruct (free (mutex s)) eqn:F; [|discriminate]. apply free_none in F. injection E as <-. destruct timedout; simple I Hp.
    + destruct Hl as [H1 H2]. split; [exact H1|exact (H2 eq_refl)].
    + exact (proj1 Hl).
  - injection E as <-. simple I Hp. split; [exact (proj1 Hl)|]. split; [reflexivity|]. intros _. exact (proj2 Hl).
  - injection E as <-. specialize (Hcp eq_refl). simple I Hp. exact Hl.
  - remember (if negb (enabled s) then Disabled else if finished then ConditionMet else Timeout) as r eqn:Er.
    assert (S : result_ok s w r -> Some (set_pc t (WRet w r) s) = Some s' -> good s s').
    { clear E. intros R E. injection E as <-. simple I Hp. exact R. }
    destruct Hl as (Hd & Hcd & Hps). unfold condition in Hcd.
    destruct r; cbv zeta in E.
    { apply S; [|exact E]. cbn. destruct (enabled s); [destruct finished; discriminate|reflexivity]. }
    { apply S; [|exact E]. cbn. destruct (enabled s); cbn [negb orb] in *; [|discriminate]. destruct finished; [discriminate|].
      destruct (Hps eq_refl) as (d & -> & Hd'). cbn in Hd. split; [reflexivity|]. split; [exact Hcd|]. split; [exact (proj1 Hd)|lia]. }
    assert (Hen : enabled s = true) by (destruct (enabled s); [reflexivity|discriminate]).
    assert (Hpv : w_pred w (value s) = true) by (rewrite Hen in *; cbn [negb orb] in *; destruct finished; [exact Hcd|discriminate]).
    destruct (w_take w) eqn:Htk; [|apply S; [|exact E]; cbn; rewrite Htk; split; [exact Hen|exists (value s); split; [exact Hpv|reflexivity]]].
    assert (R : exists v, w_pred w v = true /\ decr (value s) = (if w_take w then decr v else v)) by (exists (value s); rewrite Htk; split; [exact Hpv|reflexivity]).
    clear S. unfold decrease in E. set (s1 := set_val _ _) in E. destruct (above (value s1)) eqn:Ea; [|destruct (reached (value s1)) eqn:Erch].
    + exists t, (WReason w dl finished), (WRet w ConditionMet).
      assert (M : moved s s' t (WReason w dl finished) (WRet w ConditionMet)).
      { apply (moved_one Main pick s s1); [exact Hp|reflexivity|reflexivity|exact E|]. unfold s1. eff. }
      pose proof (notify_one_fields _ _ _ _ E) as (F1 & F2 & F3 & F4 & F5 & F6 & F7). unfold s1 in *.
      split; [exact M|]. split; [okk; cbn; rewrite F1, F2; split; [exact Hen|exact R]|]. split; [rewrite F3; cbn; lia|].
      eapply moved_sleep; [exact I|exact M|rewrite F2; reflexivity|discriminate|discriminate].
    + injection E as <-. exists t, (WReason w dl finished), (WRet w ConditionMet).
      assert (M : moved s (notify_all Thr s1) t (WReason w dl finished) (WRet w ConditionMet)).
      { apply (moved_all Thr); [exact Hp|reflexivity|reflexivity|]. unfold s1. eff. }
      unfold s1 in *. split; [exact M|]. split; [okk; split; [exact Hen|exact R]|]. split; [cbn; lia|].
      eapply moved_sleep; [exact I|exact M|reflexivity|discriminate|discriminate].
    + injection E as <-. unfold s1. simple I Hp. split; [exact Hen|exact R].
  - injection E as <-. simple I Hp. trivial.
  - destruct (free (mutex s)) eqn:F; [|discriminate]. apply free_none in F. injection E as <-. destruct notify; simple I Hp; trivial.
  - injection E as <-. exists t, VNotify, Idle.
    assert (M : moved s (notify_all Main (set_pc t Idle s)) t VNotify Idle).
    { apply (moved_all Main); [exact Hp|reflexivity|reflexivity|]. eff. }
    split; [exact M|]. split; [okk; trivial|]. split; [cbn; lia|].
    eapply moved_sleep; [exact I|exact M|reflexivity|discriminate|discriminate].
  - destruct (free (mutex s)) eqn:F; [|discriminate]. apply free_none in F. cbv zeta in E.
    set (s1 := set_pc t Idle _) in E. destruct (above (value s1)) eqn:Ea.
    + exists t, ILock, Idle.
      assert (M : moved s s' t ILock Idle).
      { apply (moved_one Main pick s s1); [exact Hp|reflexivity|reflexivity|exact E|]. unfold s1. eff. }
      pose proof (notify_one_fields _ _ _ _ E) as (F1 & F2 & F3 & F4 & F5 & F6 & F7). unfold s1 in *.
      split; [exact M|]. split; [okk; trivial|]. split; [rewrite F3; cbn; lia|].
      eapply moved_sleep; [exact I|exact M|rewrite F2; reflexivity|discriminate|discriminate].
    + injection E as <-. unfold s1. simple I Hp. trivial.
  - destruct (free (mutex s)) eqn:F; [|discriminate]. apply free_none in F. injection E as <-. simple I Hp. trivial.
  - destruct (free (status s)) eqn:F; [|discriminate]. apply free_none in F. injection E as <-.
    destruct k; simple I Hp; trivial; repeat split; discriminate.
  - injection E as <-. destruct (enabled s) eqn:En; simple I Hp; trivial; repeat split; discriminate.
  - destruct (enabled s) eqn:En; injection E as <-.
    + simple I Hp. split; [exact En|exact Hl].
    + unfold after_disable. destruct k; simple I Hp; trivial; repeat split; (exact En || discriminate || congruence).
  - destruct (free (mutex s)) eqn:F; [|discriminate]. apply free_none in F. injection E as <-.
    exists t, (DStore k), (DNotify k). assert (St : status s = Some t) by (apply Hs; reflexivity).
    assert (M : moved s (set_pc t (DNotify k) (set_enabled false s)) t (DStore k) (DNotify k)).
    { apply moved_simple; [exact Hp|reflexivity|]. eff. }
    split; [exact M|]. split; [okk; split; [reflexivity|exact (proj2 Hl)]|]. split; [cbn; lia|]. intros _. left. exists t, k. exact (mv_self _ _ _ _ _ M).
  - injection E as <-.
    assert (G : forall p' s1, threads s1 = upd (threads s) t p' -> sleeping Main p' = false -> effect s s1 t (DNotify k) p' -> ok (notify_all Main s1) t p' ->
      counted p' = false -> waiting s1 = waiting s -> good s (notify_all Main s1)).
    { intros p' s1 Ht Hsl He Hok Hcn Hw. exists t, (DNotify k), p'. split; [apply (moved_all Main); [exact Hp|cbn; rewrite Ht; reflexivity|exact Hsl|exact He]|].
      split; [exact Hok|]. split; [fields; rewrite Hcn, Hw; reflexivity|]. intros _. right. intros u q Hq. eapply all_awake. exact Hq. }
    unfold after_disable. destruct k.
    + apply G with (p' := BLoop Kenable); [reflexivity|reflexivity|eff| |reflexivity|reflexivity].
      exfalso. exact (proj2 Hl eq_refl).
    + apply G with (p' := Idle); [reflexivity|reflexivity|eff|okk; trivial|reflexivity|reflexivity].
    + apply G with (p' := BLoop Kblocking); [reflexivity|reflexivity|eff|okk; repeat split; (exact (proj1 Hl) || discriminate)|reflexivity|reflexivity].
    + apply G with (p' := BLoop Kstop); [reflexivity|reflexivity|eff|okk; repeat split; (exact (proj1 Hl) || discriminate)|reflexivity|reflexivity].
  - destruct (waiting s) as [|n] eqn:Ew; [|injection E as <-; simple I Hp; exact Hl].
    destruct k; injection E as <-; simple I Hp; trivial; repeat split; discriminate.
  - destruct (free (mutex s)) eqn:F; [|discriminate]. apply free_none in F. injection E as <-. simple I Hp. exact Hl.
  - injection E as <-. exists t, (BNotify k), (BLoop k).
    assert (M : moved s (notify_all Main (set_pc t (BLoop k) s)) t (BNotify k) (BLoop k)).
    { apply (moved_all Main); [exact Hp|reflexivity|reflexivity|]. eff. }
    split; [exact M|]. split; [okk; exact Hl|]. split; [cbn; lia|].
    eapply moved_sleep; [exact I|exact M|reflexivity|discriminate|discriminate].
  - destruct (enabled s) eqn:En; injection E as <-; simple I Hp; trivial. split; [exact En|exact Hl].
  - destruct (free (mutex s)) eqn:F; [|discriminate]. apply free_none in F. injection E as <-.
    exists t, (EStore k), Idle. assert (St : status s = Some t) by (apply Hs; reflexivity).
    assert (M : moved s (finish t k (set_enabled true s)) t (EStore k) Idle).
    { apply moved_simple; [exact Hp|reflexivity|]. eff. }
    split; [exact M|]. split; [okk; trivial|]. split; [cbn; lia|]. intros H. discriminate.
Qed.

Lemma good_inv s s' : Inv s -> good s s' -> Inv s'.
Proof.
  intros I (t & p & p' & M & Ho & Hc & Hs). constructor.
  - eapply moved_ok; eassumption.
  - eapply moved_count; eassumption.
  - exact Hs.
Qed.

Lemma step_good s l s' : Inv s -> step s l = Some s' -> (l = Tick /\ s' = set_now (now s + 1) s) \/ good s s'.
Proof.
  intros I. destruct l as [t o|t pick|t|t|]; cbn [Wait_model.step].
  - destruct (nth_error (threads s) t) as [p|] eqn:Hp; [|discriminate]. destruct p; try discriminate. intros E. injection E as <-. right.
    pose proof (inv_ok _ I t _ Hp) as (Hm & Hs & Hl). cbn [holds_mutex holds_status local] in Hm, Hs, Hl.
    assert (Hm1 : mutex s <> Some t) by (intros X; apply Hm in X; discriminate).
    assert (Hs1 : status s <> Some t) by (intros X; apply Hs in X; discriminate).
    destruct o; cbn [start]; simple I Hp; cbn [w_start]; trivial.
  - destruct (nth_error (threads s) t) as [p|] eqn:Hp; [|discriminate]. intros E. right. eapply run_good; eassumption.
  - destruct (nth_error (threads s) t) as [p|] eqn:Hp; [|discriminate]. destruct p; try discriminate. intros E. injection E as <-. right.
    pose proof (inv_ok _ I t _ Hp) as (Hm & Hs & Hl). cbn [holds_mutex holds_status local] in Hm, Hs, Hl.
    assert (Hm1 : mutex s <> Some t) by (intros X; apply Hm in X; discriminate).
    assert (Hs1 : status s <> Some t) by (intros X; apply Hs in X; discriminate).
    simple I Hp. split; [exact Hl|discriminate].
  - destruct (nth_error (threads s) t) as [p|] eqn:Hp; [|discriminate]. destruct p; try discriminate. destruct dl as [d|]; [|discriminate].
    destruct (d <=? now s) eqn:Ed; [|discriminate]. intros E. injection E as <-. right.
    pose proof (inv_ok _ I t _ Hp) as (Hm & Hs & Hl). cbn [holds_mutex holds_status local] in Hm, Hs, Hl.
    assert (Hm1 : mutex s <> Some t) by (intros X; apply Hm in X; discriminate).
    assert (Hs1 : status s <> Some t) by (intros X; apply Hs in X; discriminate).
    simple I Hp. split; [exact Hl|]. intros _. exists d. apply Nat.leb_le in Ed. split; [reflexivity|exact Ed].
  - intros E. injection E as <-. left. split; reflexivity.
Qed.

Lemma tick_inv s : Inv s -> Inv (set_now (now s + 1) s).
Proof.
  intros I. constructor; [|exact (inv_count _ I)|exact (inv_sleep _ I)]. intros t p Hp. destruct (inv_ok _ I t p Hp) as (Hm & Hs & Hl).
  split; [exact Hm|]. split; [exact Hs|]. destruct p; cbn [local] in *; try exact Hl; fields; try lia.
  - destruct Hl as [H1 H2]. split; [exact H1|]. intros H. destruct (H2 H) as (d & E & L). exists d. split; [exact E|fields; lia].
  - destruct Hl as [H1 (d & E & L)]. split; [exact H1|]. exists d. split; [exact E|fields; lia].
  - destruct Hl as (H1 & H2 & H3). split; [exact H1|]. split; [exact H2|]. intros H. destruct (H3 H) as (d & E & L). exists d. split; [exact E|fields; lia].
  - destruct Hl as (H1 & H2 & H3). split; [exact H1|]. split; [exact H2|]. intros H. destruct (H3 H) as (d & E & L). exists d. split; [exact E|fields; lia].
  - unfold result_ok in *. destruct r; fields; [exact Hl|intuition lia|exact Hl].
Qed.

Lemma step_inv s l s' : Inv s -> step s l = Some s' -> Inv s'.
Proof. intros I E. destruct (step_good s l s' I E) as [[-> ->]|G]; [apply tick_inv; exact I|exact (good_inv s s' I G)]. Qed.

Lemma init_inv v en n : Inv (init v en n).
Proof.
  constructor.
  - intros t p Hp. apply nth_repeat in Hp as ->. repeat split; discriminate.
  - symmetry. apply count_repeat. reflexivity.
  - intros _. right. intros t p Hp. apply nth_repeat in Hp as ->. reflexivity.
Qed.

Lemma reachable_inv allowed v en n s : reachable allowed (init v en n) s -> Inv s.
Proof. intros H. induction H as [|s l s' _ IH _ E]; [apply init_inv|exact (step_inv s l s' IH E)]. Qed.

(** ** C31, C32 *)
Lemma cons_neq {A} (x : A) l : x :: l <> l.
Proof. intros H. apply (f_equal (@length A)) in H. cbn in H. lia. Qed.

Definition new_event s s' (e : event V) : Prop := log s' = e :: log s.

Lemma notify_one_log c pick s s' : notify_one c pick s = Some s' -> log s' = log s.
Proof. intros H. apply (notify_one_fields _ _ _ _ H). Qed.

Lemma run_event t p pick s s' e : run above reached incr decr t p pick s = Some s' -> new_event s s' e ->
  match e with
  | EvReturn t' w r => t' = t /\ p = WRet w r
  | EvValue t' v => t' = t /\ v = value s
  | EvDone t' k => t' = t /\ threads s' = match p with DNotify _ => map (wake Main) (upd (threads s) t Idle) | _ => upd (threads s) t Idle end /\
      match p with
      | DTest k' => k' = k /\ k = Kdisable /\ enabled s = false
      | DNotify k' => k' = k /\ k = Kdisable
      | BLoop k' => k' = k /\ k <> Kstop /\ waiting s = 0
      | ETest k' => k' = k /\ enabled s = true
      | EStore k' => k' = k /\ enabled s' = true
      | _ => False
      end /\ (match p with EStore _ => True | _ => enabled s' = enabled s end) /\ waiting s' = waiting s
  end.
Proof.
  unfold new_event. intros E L.
  destruct p; cbn [run] in E; try discriminate;
    try (destruct (free (mutex s)); [|discriminate]); try (destruct (free (status s)); [|discriminate]).
  all: try (injection E as <-; fields; exfalso; symmetry in L; exact (cons_neq _ _ L)).
  - destruct (negb (enabled s)); injection E as <-; fields; exfalso; symmetry in L; exact (cons_neq _ _ L).
  - destruct (condition w s); injection E as <-; fields; exfalso; symmetry in L; exact (cons_neq _ _ L).
  - exfalso. remember (if negb (enabled s) then Disabled else if finished then ConditionMet else Timeout) as r.
    assert (X : log s' = log s); [|rewrite X in L; symmetry in L; exact (cons_neq _ _ L)].
    destruct r; try (injection E as <-; reflexivity). destruct (w_take w); [|injection E as <-; reflexivity].
    unfold decrease in E. destruct (above _); [apply notify_one_log in E; exact E|]. destruct (reached _); injection E as <-; reflexivity.
  - injection E as <-. fields. injection L as <-. split; reflexivity.
  - exfalso. assert (X : log s' = log s); [|rewrite X in L; symmetry in L; exact (cons_neq _ _ L)]. cbv zeta in E.
    destruct (above _); [apply notify_one_log in E; exact E|]. injection E as <-. reflexivity.
  - injection E as <-. fields. injection L as <-. split; reflexivity.
  - destruct (enabled s) eqn:En; injection E as <-.
    + fields; exfalso; symmetry in L; exact (cons_neq _ _ L).
    + unfold after_disable in L |- *. destruct k; fields; try (exfalso; symmetry in L; exact (cons_neq _ _ L)). injection L as <-. repeat split; congruence.
  - injection E as <-. unfold after_disable in L |- *. destruct k; fields; try (exfalso; symmetry in L; exact (cons_neq _ _ L)). injection L as <-. repeat split.
  - destruct (waiting s) eqn:Ew; [destruct k|]; injection E as <-; fields; try (exfalso; symmetry in L; exact (cons_neq _ _ L)); injection L as <-; repeat split; congruence.
  - destruct (enabled s) eqn:En; injection E as <-; fields; try (exfalso; symmetry in L; exact (cons_neq _ _ L)); injection L as <-; repeat split; congruence.
  - injection E as <-. fields. injection L as <-. repeat split.
Qed.

Lemma step_event s l s' e : step s l = Some s' -> new_event s s' e ->
  exists t pick p, l = Run t pick /\ nth_error (threads s) t = Some p /\ run above reached incr decr t p pick s = Some s'.
Proof.
  unfold new_event. intros E L. destruct l as [t o|t pick|t|t|]; cbn [Wait_model.step] in E.
  - destruct (nth_error (threads s) t) as [p|] eqn:Hp; [|discriminate]. destruct p; try discriminate. injection E as <-. exfalso. symmetry in L. exact (cons_neq _ _ L).
  - destruct (nth_error (threads s) t) as [p|] eqn:Hp; [|discriminate]. exists t, pick, p. repeat split; assumption.
  - destruct (nth_error (threads s) t) as [p|] eqn:Hp; [|discriminate]. destruct p; try discriminate. injection E as <-. exfalso. symmetry in L. exact (cons_neq _ _ L).
  - destruct (nth_error (threads s) t) as [p|] eqn:Hp; [|discriminate]. destruct p; try discriminate. destruct dl as [d|]; [|discriminate].
    destruct (d <=? now s); [|discriminate]. injection E as <-. exfalso. symmetry in L. exact (cons_neq _ _ L).
  - injection E as <-. exfalso. symmetry in L. exact (cons_neq _ _ L).
Qed.

Lemma reason_lemma : forall v en n s l s' t w r, reachable anything (init v en n) s -> step s l = Some s' ->
  log s' = EvReturn t w r :: log s ->
  match r with
  | Disabled => enabled s = false
  | Timeout => enabled s = true /\ w_pred w (value s) = false /\ w_timeout w <> 0 /\ w_start w + w_timeout w <= now s
  | ConditionMet => enabled s = true /\ exists v, w_pred w v = true /\ value s = if w_take w then decr v else v
  end.
Proof.
  intros v en n s l s' t w r R E L. pose proof (reachable_inv _ _ _ _ _ R) as I.
  destruct (step_event s l s' _ E L) as (u & pick & p & -> & Hp & E'). pose proof (run_event _ _ _ _ _ _ E' L) as [-> ->].
  destruct (inv_ok _ I u _ Hp) as (_ & _ & Hl). exact Hl.
Qed.

Lemma blocking_lemma : forall v en n s l s' t, reachable anything (init v en n) s -> step s l = Some s' ->
  log s' = EvDone t Kblocking :: log s ->
  enabled s' = false /\ waiting s' = 0 /\ forall u q, nth_error (threads s') u = Some q -> blocked_in_wait q = false.
Proof.
  intros v en n s l s' t R E L. pose proof (reachable_inv _ _ _ _ _ R) as I.
  destruct (step_event s l s' _ E L) as (u & pick & p & -> & Hp & E'). pose proof (run_event _ _ _ _ _ _ E' L) as (-> & Ht & Hp' & He & Hw).
  destruct (inv_ok _ I u _ Hp) as (_ & _ & Hl).
  destruct p; cbn [local] in Hl; try contradiction.
  - destruct Hp' as (_ & X & _). discriminate.
  - destruct Hp' as (_ & X). discriminate.
  - destruct Hp' as (_ & _ & Hz). split; [rewrite He; exact (proj1 Hl)|]. split; [rewrite Hw; exact Hz|].
    rewrite (inv_count _ I) in Hz. pose proof (proj1 (count_zero _ _) Hz) as Z. intros v' q Hq. rewrite Ht in Hq.
    destruct (Nat.eq_dec u v') as [<-|N].
    + rewrite (nth_upd_same _ _ _ _ Hp) in Hq. injection Hq as <-. reflexivity.
    + rewrite nth_upd_other in Hq by exact N. exact (Z v' q Hq).
  - destruct Hp' as (-> & _). destruct Hl as [X _]. congruence.
  - destruct Hp' as (-> & _). destruct Hl as (_ & X & _). congruence.
Qed.

Lemma disable_lemma : forall v en n s l s' t, reachable anything (init v en n) s -> step s l = Some s' ->
  log s' = EvDone t Kdisable :: log s ->
  enabled s' = false /\ forall u q, nth_error (threads s') u = Some q -> sleeping Main q = false.
Proof.
  intros v en n s l s' t R E L. pose proof (reachable_inv _ _ _ _ _ R) as I.
  destruct (step_event s l s' _ E L) as (u & pick & p & -> & Hp & E'). pose proof (run_event _ _ _ _ _ _ E' L) as (-> & Ht & Hp' & He & Hw).
  destruct (inv_ok _ I u _ Hp) as (_ & Hs & Hl).
  destruct p; cbn [local holds_status] in Hl, Hs; try contradiction.
  - destruct Hp' as (_ & _ & Hf). split; [rewrite He; exact Hf|]. intros v' q Hq. rewrite Ht in Hq.
    assert (St : status s = Some u) by (apply Hs; reflexivity).
    destruct (Nat.eq_dec u v') as [<-|N]; [rewrite (nth_upd_same _ _ _ _ Hp) in Hq; injection Hq as <-; reflexivity|].
    rewrite nth_upd_other in Hq by exact N. destruct (inv_sleep _ I Hf) as [(x & k' & Hx)|Hn]; [|exact (Hn v' q Hq)].
    destruct (inv_ok _ I x _ Hx) as (_ & Hsx & _). assert (St' : status s = Some x) by (apply Hsx; reflexivity).
    rewrite St in St'. injection St' as ->. rewrite Hp in Hx. discriminate.
  - destruct Hl as [Hf _]. split; [rewrite He; exact Hf|]. intros v' q Hq. rewrite Ht in Hq. eapply all_awake. exact Hq.
  - destruct Hp' as (-> & _). destruct Hl as (_ & X & _). congruence.
  - destruct Hp' as (-> & _). destruct Hl as (_ & X). congruence.
  - destruct Hp' as (-> & _). destruct Hl as (_ & _ & X). congruence.
Qed.

(** ** C33, plain handlers *)
Definition wait_of p : option (wait_call V) :=
  match p with
  | WLock w | WCheck w | WTest w _ | WSleep w _ | WWoken w _ _ | WFinal w _ | WExit w _ _ | WReason w _ _ | WRet w _ => Some w
  | _ => None
  end.

Definition plain_pc (conditions : (V -> bool) -> Prop) p : Prop :=
  match wait_of p with
  | Some w => w_cv w = Main /\ w_take w = false /\ conditions (w_pred w)
  | None => match p with ILock => False | VLock f false => forall x c, conditions c -> c (f x) = false | _ => True end
  end.

Record Plain conditions s : Prop := {
  pl_pc : forall t p, nth_error (threads s) t = Some p -> plain_pc conditions p;
  pl_wake : forall t w dl, nth_error (threads s) t = Some (WSleep w dl) -> w_pred w (value s) = true ->
    exists u, nth_error (threads s) u = Some VNotify }.

Lemma woken_wait p q : woken p q -> wait_of q = wait_of p.
Proof. intros [->|(c & H & ->)]; [reflexivity|]. destruct p; try discriminate. cbn in *. rewrite H. reflexivity. Qed.

Lemma woken_plain conditions p q : woken p q -> plain_pc conditions p -> plain_pc conditions q.
Proof.
  intros [->|(c & H & ->)]; [trivial|]. destruct p; try discriminate. cbn in *. rewrite H. trivial.
Qed.

Lemma woken_sleep p w dl : woken p (WSleep w dl) -> p = WSleep w dl.
Proof. intros [<-|(c & H & E)]; [reflexivity|]. destruct p; try discriminate. cbn in *. rewrite H in E. discriminate. Qed.

Lemma moved_plain conditions s s' t p p' : Plain conditions s -> moved s s' t p p' -> plain_pc conditions p' ->
  (forall w dl, p' = WSleep w dl -> w_pred w (value s') = false) ->
  (p = VNotify -> forall u q, nth_error (threads s') u = Some q -> sleeping Main q = false) ->
  (value s' = value s \/ p' = VNotify \/ forall c, conditions c -> c (value s') = false) -> Plain conditions s'.
Proof.
  intros P M Hp' Hsl Hv Hval. destruct (mv_thr _ _ _ _ _ M) as (_ & _ & H1 & H2).
  assert (Hpc : forall u q, nth_error (threads s') u = Some q -> plain_pc conditions q).
  { intros u q Hq. destruct (Nat.eq_dec u t) as [->|N].
    - rewrite (mv_self _ _ _ _ _ M) in Hq. injection Hq as <-. exact Hp'.
    - destruct (H1 u q Hq) as (q0 & H0 & W). rewrite nth_upd_other in H0 by congruence.
      eapply woken_plain; [exact W|exact (pl_pc _ _ P u q0 H0)]. }
  constructor; [exact Hpc|]. intros u w dl Hu Hw. destruct (Nat.eq_dec u t) as [->|N].
  - rewrite (mv_self _ _ _ _ _ M) in Hu. injection Hu as ->. rewrite (Hsl w dl eq_refl) in Hw. discriminate.
  - pose proof (Hpc u _ Hu) as (Hc & _ & Hcond). destruct (H1 u _ Hu) as (q0 & H0 & W). rewrite nth_upd_other in H0 by congruence.
    apply woken_sleep in W. subst q0. destruct Hval as [Hval|[Hval|Hval]].
    + rewrite Hval in Hw. destruct (pl_wake _ _ P u w dl H0 Hw) as (x & Hx). destruct (Nat.eq_dec x t) as [->|Nx].
      * rewrite (mv_at _ _ _ _ _ M) in Hx. injection Hx as ->. specialize (Hv eq_refl u _ Hu). cbn in Hv. rewrite Hc in Hv. discriminate.
      * exists x. destruct (H2 x VNotify) as (q & Hq & Wq); [rewrite nth_upd_other by congruence; exact Hx|].
        apply woken_awake in Wq; [|discriminate]. subst q. exact Hq.
    + exists t. rewrite <- Hval. exact (mv_self _ _ _ _ _ M).
    + rewrite (Hval _ Hcond) in Hw. discriminate.
Qed.

Ltac psimple P Hp := eapply moved_plain; [exact P|apply moved_simple; [exact Hp|reflexivity|eff]|idtac|try discriminate|try discriminate|try (left; reflexivity)].

Lemma run_plain conditions t p pick s s' : Inv s -> Plain conditions s -> nth_error (threads s) t = Some p ->
  run above reached incr decr t p pick s = Some s' -> Plain conditions s'.
Proof.
  intros I P Hp. pose proof (inv_ok _ I t p Hp) as (Hm & Hs & Hl). pose proof (pl_pc _ _ P t p Hp) as Hpl.
  destruct p; cbn [run]; cbn [holds_mutex holds_status local] in Hm, Hs, Hl; intros E;
    (first [assert (Hm1 : mutex s = Some t) by (apply Hm; reflexivity)|assert (Hm1 : mutex s <> Some t) by (intros X; apply Hm in X; discriminate)]);
    (first [assert (Hs1 : status s = Some t) by (apply Hs; reflexivity)|assert (Hs1 : status s <> Some t) by (intros X; apply Hs in X; discriminate)]).
  - discriminate.
  - destruct (free (mutex s)) eqn:F; [|discriminate]. apply free_none in F. injection E as <-. psimple P Hp. exact Hpl.
  - destruct (negb (enabled s)) eqn:En; injection E as <-; psimple P Hp; exact Hpl.
  - destruct (condition w s) eqn:Ec; injection E as <-; psimple P Hp; try exact Hpl.
    intros w0 dl0 E0. injection E0 as <- <-. unfold condition in Ec. apply orb_false_iff in Ec as [_ Ec]. exact Ec.
  - discriminate.
  - destruct (free (mutex s)) eqn:F; [|discriminate]. apply free_none in F. injection E as <-. destruct timedout; psimple P Hp; exact Hpl.
  - injection E as <-. psimple P Hp. exact Hpl.
  - injection E as <-. psimple P Hp. exact Hpl.
  - cbv zeta in E. assert (Htk : w_take w = false) by (exact (proj1 (proj2 Hpl))). rewrite Htk in E.
    destruct (if negb (enabled s) then Disabled else if finished then ConditionMet else Timeout); injection E as <-; psimple P Hp; exact Hpl.
  - injection E as <-. psimple P Hp. exact Logic.I.
  - destruct (free (mutex s)) eqn:F; [|discriminate]. apply free_none in F. injection E as <-. destruct notify; psimple P Hp; try exact Logic.I.
    + right. left. reflexivity.
    + right. right. intros c Hc. cbn. apply Hpl. exact Hc.
  - injection E as <-. eapply moved_plain; [exact P|apply (moved_all Main); [exact Hp|reflexivity|reflexivity|eff]|exact Logic.I|discriminate| |left; reflexivity].
    intros _ u q Hq. eapply all_awake. exact Hq.
  - contradiction.
  - destruct (free (mutex s)) eqn:F; [|discriminate]. apply free_none in F. injection E as <-. psimple P Hp. exact Logic.I.
  - destruct (free (status s)) eqn:F; [|discriminate]. apply free_none in F. injection E as <-. destruct k; psimple P Hp; exact Logic.I.
  - injection E as <-. destruct (enabled s); psimple P Hp; exact Logic.I.
  - destruct (enabled s); injection E as <-; [psimple P Hp; exact Logic.I|]. unfold after_disable. destruct k; psimple P Hp; exact Logic.I.
  - destruct (free (mutex s)) eqn:F; [|discriminate]. apply free_none in F. injection E as <-. psimple P Hp. exact Logic.I.
  - injection E as <-. unfold after_disable. destruct k;
      (eapply moved_plain; [exact P|apply (moved_all Main); [exact Hp|reflexivity|reflexivity|eff]|exact Logic.I|discriminate|discriminate|left; reflexivity]).
  - destruct (waiting s); [destruct k|]; injection E as <-; psimple P Hp; exact Logic.I.
  - destruct (free (mutex s)) eqn:F; [|discriminate]. apply free_none in F. injection E as <-. psimple P Hp. exact Logic.I.
  - injection E as <-. eapply moved_plain; [exact P|apply (moved_all Main); [exact Hp|reflexivity|reflexivity|eff]|exact Logic.I|discriminate|discriminate|left; reflexivity].
  - destruct (enabled s); injection E as <-; psimple P Hp; exact Logic.I.
  - destruct (free (mutex s)) eqn:F; [|discriminate]. apply free_none in F. injection E as <-. psimple P Hp. exact Logic.I.
Qed.

Lemma step_plain conditions s l s' : Inv s -> Plain conditions s -> plain_client conditions s l -> step s l = Some s' -> Plain conditions s'.
Proof.
  intros I P C. destruct l as [t o|t pick|t|t|]; cbn [Wait_model.step].
  - destruct (nth_error (threads s) t) as [p|] eqn:Hp; [|discriminate]. destruct p; try discriminate. intros E. injection E as <-.
    destruct o; cbn [start plain_client] in *; try contradiction; psimple P Hp; try exact Logic.I.
    + split; [reflexivity|]. split; [reflexivity|exact C].
    + destruct notify; cbn [plain_pc wait_of]; [exact Logic.I|]. intros x c Hc. exact (C c Hc).
  - destruct (nth_error (threads s) t) as [p|] eqn:Hp; [|discriminate]. intros E. eapply run_plain; eassumption.
  - destruct (nth_error (threads s) t) as [p|] eqn:Hp; [|discriminate]. destruct p; try discriminate. intros E. injection E as <-.
    pose proof (pl_pc _ _ P t _ Hp) as Hpl. psimple P Hp. exact Hpl.
  - destruct (nth_error (threads s) t) as [p|] eqn:Hp; [|discriminate]. destruct p; try discriminate. destruct dl as [d|]; [|discriminate].
    destruct (d <=? now s) eqn:Ed; [|discriminate]. intros E. injection E as <-.
    pose proof (pl_pc _ _ P t _ Hp) as Hpl. psimple P Hp. exact Hpl.
  - intros E. injection E as <-. destruct P as [P1 P2]. constructor; [exact P1|exact P2].
Qed.

Lemma reachable_plain conditions v en n s : reachable (plain_client conditions) (init v en n) s -> Plain conditions s.
Proof.
  intros H. induction H as [|s l s' R IH C E].
  - constructor; [intros t p Hp; apply nth_repeat in Hp as ->; exact I|]. intros t w dl Hp. apply nth_repeat in Hp. discriminate.
  - eapply step_plain; [eapply reachable_inv; exact R|exact IH|exact C|exact E].
Qed.

Lemma plain_wakeup_lemma : forall conditions v en n s t w dl, reachable (plain_client conditions) (init v en n) s ->
  nth_error (threads s) t = Some (WSleep w dl) -> (forall u q, nth_error (threads s) u = Some q -> about_to_notify q = false) ->
  enabled s = true /\ w_pred w (value s) = false.
Proof.
  intros conditions v en n s t w dl R Hs Hn. pose proof (reachable_inv _ _ _ _ _ R) as I. pose proof (reachable_plain _ _ _ _ _ R) as P. split.
  - destruct (enabled s) eqn:E; [reflexivity|]. exfalso. destruct (inv_sleep _ I E) as [(u & k & Hu)|Hz].
    + specialize (Hn u _ Hu). discriminate.
    + specialize (Hz t _ Hs). cbn in Hz. destruct (pl_pc _ _ P t _ Hs) as (Hc & _). rewrite Hc in Hz. discriminate.
  - destruct (w_pred w (value s)) eqn:E; [|reflexivity]. exfalso. destruct (pl_wake _ _ P t w dl Hs E) as (u & Hu). specialize (Hn u _ Hu). discriminate.
Qed.

(** ** C33, counters *)
Definition counter_pc p : Prop :=
  match wait_of p with
  | Some w => if w_take w then w_cv w = Main /\ w_pred w = above else w_cv w = Thr /\ w_pred w = reached
  | None => match p with VLock _ _ => False | VNotify => False | _ => True end
  end.

(** about to wake every thread *)
Definition helper p : bool := awake_taker p || match p with DNotify _ | BNotify _ => true | _ => false end.

Record Counter s : Prop := {
  ct_pc : forall t p, nth_error (threads s) t = Some p -> counter_pc p;
  ct_wake : enabled s = true -> above (value s) = true -> forall t p, nth_error (threads s) t = Some p -> sleeping Main p = true ->
    exists u q, nth_error (threads s) u = Some q /\ helper q = true }.

Lemma woken_counter p q : woken p q -> counter_pc p -> counter_pc q.
Proof. intros [->|(c & H & ->)]; [trivial|]. destruct p; try discriminate. cbn in *. rewrite H. trivial. Qed.

Lemma woken_helper p q : woken p q -> helper p = true -> helper q = true.
Proof. intros [->|(c & H & ->)]; [trivial|]. destruct p; try discriminate. Qed.

Lemma woken_not_sleeping c p q : woken p q -> sleeping c q = true -> q = p.
Proof. intros [->|(d & H & ->)]; [reflexivity|]. destruct p; try discriminate. cbn in *. rewrite H. discriminate. Qed.

Lemma moved_counter s s' t p p' : Counter s -> moved s s' t p p' -> counter_pc p' ->
  (sleeping Main p' = true -> enabled s' = true -> above (value s') = false) ->
  (enabled s' = true -> above (value s') = true ->
    (forall u q, nth_error (threads s') u = Some q -> sleeping Main q = false) \/
    (exists u q, nth_error (threads s') u = Some q /\ helper q = true) \/
    (enabled s = true /\ above (value s) = true /\ (helper p = true -> helper p' = true))) ->
  Counter s'.
Proof.
  intros P M Hp' Hsl H. destruct (mv_thr _ _ _ _ _ M) as (_ & _ & H1 & H2). constructor.
  - intros u q Hq. destruct (Nat.eq_dec u t) as [->|N].
    + rewrite (mv_self _ _ _ _ _ M) in Hq. injection Hq as <-. exact Hp'.
    + destruct (H1 u q Hq) as (q0 & H0 & W). rewrite nth_upd_other in H0 by congruence. eapply woken_counter; [exact W|exact (ct_pc _ P u q0 H0)].
  - intros He Ha u q Hq Hqs. destruct (H He Ha) as [Hz|[Hx|(He0 & Ha0 & Hh)]]; [rewrite (Hz u q Hq) in Hqs; discriminate|exact Hx|].
    destruct (Nat.eq_dec u t) as [->|N].
    + rewrite (mv_self _ _ _ _ _ M) in Hq. injection Hq as <-. rewrite (Hsl Hqs He) in Ha. discriminate.
    + destruct (H1 u q Hq) as (q0 & H0 & W). rewrite nth_upd_other in H0 by congruence. pose proof (woken_not_sleeping _ _ _ W Hqs) as <-.
      destruct (ct_wake _ P He0 Ha0 u q H0 Hqs) as (x & qx & Hx & Hxh). destruct (Nat.eq_dec x t) as [->|Nx].
      * rewrite (mv_at _ _ _ _ _ M) in Hx. injection Hx as <-. exists t, p'. split; [exact (mv_self _ _ _ _ _ M)|exact (Hh Hxh)].
      * destruct (H2 x qx) as (qy & Hy & Wy); [rewrite nth_upd_other by congruence; exact Hx|]. exists x, qy. split; [exact Hy|eapply woken_helper; eassumption].
Qed.

Lemma notify_one_counter pick s s' : notify_one Main pick s = Some s' -> (forall t p, nth_error (threads s) t = Some p -> counter_pc p) ->
  (forall u q, nth_error (threads s') u = Some q -> sleeping Main q = false) \/
  (exists u q, nth_error (threads s') u = Some q /\ helper q = true).
Proof.
  intros H C. apply notified_one in H as (l' & -> & _ & [[Hz ->]|(p & Hp & Hs & ->)]).
  - left. exact Hz.
  - right. exists pick, (wake Main p). cbn [threads set_threads]. rewrite (nth_upd_same _ _ _ _ Hp). split; [reflexivity|].
    specialize (C pick p Hp). destruct p; try discriminate. cbn in *. rewrite Hs. unfold counter_pc in C. cbn [wait_of] in C. unfold helper, awake_taker.
    destruct (w_take w); [reflexivity|]. destruct C as [C _]. rewrite C in Hs. discriminate.
Qed.

Ltac csame := intros He Ha; right; right; split; [exact He|split; [exact Ha|unfold helper, awake_taker; try (intros; discriminate); auto]].
Ltac csimple P Hp := eapply moved_counter; [exact P|apply moved_simple; [exact Hp|reflexivity|eff]|idtac|try (cbn; discriminate)|idtac].

Lemma run_counter t p pick s s' : Inv s -> Counter s -> nth_error (threads s) t = Some p ->
  run above reached incr decr t p pick s = Some s' -> Counter s'.
Proof.
  intros I P Hp. pose proof (inv_ok _ I t p Hp) as (Hm & Hs & Hl). pose proof (ct_pc _ P t p Hp) as Hpl.
  destruct p; cbn [run]; cbn [holds_mutex holds_status local] in Hm, Hs, Hl; intros E;
    (first [assert (Hm1 : mutex s = Some t) by (apply Hm; reflexivity)|assert (Hm1 : mutex s <> Some t) by (intros X; apply Hm in X; discriminate)]);
    (first [assert (Hs1 : status s = Some t) by (apply Hs; reflexivity)|assert (Hs1 : status s <> Some t) by (intros X; apply Hs in X; discriminate)]).
  - discriminate.
  - destruct (free (mutex s)) eqn:F; [|discriminate]. apply free_none in F. injection E as <-. csimple P Hp; [exact Hpl|csame].
  - destruct (negb (enabled s)) eqn:En; injection E as <-; csimple P Hp; try exact Hpl; csame.
  - destruct (condition w s) eqn:Ec; injection E as <-; csimple P Hp; try exact Hpl.
    + csame.
    + cbn [sleeping]. unfold counter_pc in Hpl. cbn [wait_of] in Hpl. intros Hmn _. unfold condition in Ec. apply orb_false_iff in Ec as [_ Ec].
      destruct (w_take w); destruct Hpl as [Hc Hpr]; [rewrite <- Hpr; exact Ec|]. rewrite Hc in Hmn. discriminate.
    + intros He Ha. right. right. split; [exact He|]. split; [exact Ha|]. unfold helper, awake_taker. rewrite ?orb_false_r. intros Htk. exfalso. fields.
      unfold counter_pc in Hpl. cbn [wait_of] in Hpl. rewrite Htk in Hpl. destruct Hpl as [_ Hpr].
      unfold condition in Ec. apply orb_false_iff in Ec as [_ Ec]. rewrite Hpr in Ec. congruence.
  - discriminate.
  - destruct (free (mutex s)) eqn:F; [|discriminate]. apply free_none in F. injection E as <-. destruct timedout; csimple P Hp; try exact Hpl; csame.
  - injection E as <-. csimple P Hp; [exact Hpl|csame].
  - injection E as <-. csimple P Hp; [exact Hpl|csame].
  - cbv zeta in E. destruct Hl as (_ & Hcd & _). unfold condition in Hcd. unfold counter_pc in Hpl. cbn [wait_of] in Hpl.
    assert (G : forall r, r <> ConditionMet \/ w_take w = false -> (enabled s = true -> r = ConditionMet \/ finished = false) ->
      Some (set_pc t (WRet w r) s) = Some s' -> Counter s').
    { clear E. intros r Hr Hfin E. injection E as <-. csimple P Hp; [exact Hpl|]. intros He Ha. right. right. split; [exact He|]. split; [exact Ha|].
      unfold helper, awake_taker. rewrite ?orb_false_r. intros Htk. rewrite Htk in *. destruct Hpl as [_ Hpr]. fields.
      destruct Hr as [Hr|Hr]; [|discriminate]. destruct (Hfin He) as [X|X]; [contradiction|]. rewrite He, Hpr, Ha, X in Hcd. discriminate. }
    destruct (enabled s) eqn:En; cbn [negb] in E.
    2:{ apply (G Disabled); [left; discriminate|discriminate|exact E]. }
    destruct finished.
    2:{ apply (G Timeout); [left; discriminate|intros _; right; reflexivity|exact E]. }
    destruct (w_take w) eqn:Htk.
    2:{ apply (G ConditionMet); [right; reflexivity|intros _; left; reflexivity|exact E]. }
    clear G. unfold decrease in E. set (s1 := set_val _ _) in E.
    assert (C1 : forall u q, nth_error (threads s1) u = Some q -> counter_pc q).
    { intros u q Hq. unfold s1 in Hq. fields. destruct (Nat.eq_dec t u) as [<-|N].
      - rewrite (nth_upd_same _ _ _ _ Hp) in Hq. injection Hq as <-. unfold counter_pc. cbn [wait_of]. rewrite Htk. exact Hpl.
      - rewrite nth_upd_other in Hq by exact N. exact (ct_pc _ P u q Hq). }
    assert (Cw : counter_pc (WRet w ConditionMet)) by (unfold counter_pc; cbn [wait_of]; rewrite Htk; exact Hpl).
    destruct (above (value s1)) eqn:Ea; [|destruct (reached (value s1)) eqn:Erch].
    + eapply moved_counter; [exact P|apply (moved_one Main pick s s1); [exact Hp|reflexivity|reflexivity|exact E|unfold s1; eff]|exact Cw|discriminate|].
      intros _ _. destruct (notify_one_counter pick s1 s' E C1) as [H|H]; [left; exact H|right; left; exact H].
    + injection E as <-. eapply moved_counter; [exact P|apply (moved_all Thr); [exact Hp|reflexivity|reflexivity|unfold s1; eff]|exact Cw|discriminate|].
      intros _ Ha. unfold s1 in *. fields. congruence.
    + injection E as <-. eapply moved_counter; [exact P|apply moved_simple; [exact Hp|reflexivity|unfold s1; eff]|exact Cw|discriminate|].
      intros _ Ha. unfold s1 in *. fields. congruence.
  - injection E as <-. csimple P Hp; [exact Logic.I|csame].
  - contradiction.
  - contradiction.
  - destruct (free (mutex s)) eqn:F; [|discriminate]. apply free_none in F. cbv zeta in E. set (s1 := set_pc t Idle _) in E.
    assert (C1 : forall u q, nth_error (threads s1) u = Some q -> counter_pc q).
    { intros u q Hq. unfold s1 in Hq. fields. destruct (Nat.eq_dec t u) as [<-|N].
      - rewrite (nth_upd_same _ _ _ _ Hp) in Hq. injection Hq as <-. exact Logic.I.
      - rewrite nth_upd_other in Hq by exact N. exact (ct_pc _ P u q Hq). }
    destruct (above (value s1)) eqn:Ea.
    + eapply moved_counter; [exact P|apply (moved_one Main pick s s1); [exact Hp|reflexivity|reflexivity|exact E|unfold s1; eff]|exact Logic.I|discriminate|].
      intros _ _. destruct (notify_one_counter pick s1 s' E C1) as [H|H]; [left; exact H|right; left; exact H].
    + injection E as <-. eapply moved_counter; [exact P|apply moved_simple; [exact Hp|reflexivity|unfold s1; eff]|exact Logic.I|discriminate|].
      intros _ Ha. unfold s1 in *. fields. congruence.
  - destruct (free (mutex s)) eqn:F; [|discriminate]. apply free_none in F. injection E as <-. csimple P Hp; [exact Logic.I|csame].
  - destruct (free (status s)) eqn:F; [|discriminate]. apply free_none in F. injection E as <-. destruct k; csimple P Hp; try exact Logic.I; csame.
  - injection E as <-. destruct (enabled s) eqn:En; csimple P Hp; try exact Logic.I; intros He Ha; right; right; fields; (split; [congruence|split; [exact Ha|discriminate]]).
  - destruct (enabled s) eqn:En; injection E as <-.
    + csimple P Hp; try exact Logic.I. intros He Ha; right; right; fields; (split; [congruence|split; [exact Ha|discriminate]]).
    + unfold after_disable. destruct k; csimple P Hp; try exact Logic.I; intros He Ha; fields; congruence.
  - destruct (free (mutex s)) eqn:F; [|discriminate]. apply free_none in F. injection E as <-. csimple P Hp; [exact Logic.I|]. intros He; discriminate.
  - injection E as <-. destruct Hl as [Hf _]. unfold after_disable. destruct k;
      (eapply moved_counter; [exact P|apply (moved_all Main); [exact Hp|reflexivity|reflexivity|eff]|exact Logic.I|discriminate|intros He; fields; congruence]).
  - destruct Hl as [Hf _]. destruct (waiting s); [destruct k|]; injection E as <-; csimple P Hp; try exact Logic.I; intros He Ha; fields; congruence.
  - destruct Hl as [Hf _]. destruct (free (mutex s)) eqn:F; [|discriminate]. apply free_none in F. injection E as <-. csimple P Hp; [exact Logic.I|]. intros He Ha; fields; congruence.
  - destruct Hl as [Hf _]. injection E as <-. eapply moved_counter; [exact P|apply (moved_all Main); [exact Hp|reflexivity|reflexivity|eff]|exact Logic.I|discriminate|intros He; fields; congruence].
  - destruct (enabled s) eqn:En; injection E as <-; csimple P Hp; try exact Logic.I; intros He Ha; right; right; fields; (split; [congruence|split; [exact Ha|discriminate]]).
  - destruct (free (mutex s)) eqn:F; [|discriminate]. apply free_none in F. injection E as <-. destruct Hl as [Hf _].
    csimple P Hp; [exact Logic.I|]. intros _ _. left. intros u q Hq. fields.
    assert (St : status s = Some t) by (apply Hs; reflexivity).
    destruct (Nat.eq_dec t u) as [<-|N]; [rewrite (nth_upd_same _ _ _ _ Hp) in Hq; injection Hq as <-; reflexivity|].
    rewrite nth_upd_other in Hq by exact N. destruct (inv_sleep _ I Hf) as [(x & k' & Hx)|Hn]; [|exact (Hn u q Hq)].
    destruct (inv_ok _ I x _ Hx) as (_ & Hsx & _). assert (St' : status s = Some x) by (apply Hsx; reflexivity).
    rewrite St in St'. injection St' as ->. rewrite Hp in Hx. discriminate.
Qed.

Lemma step_counter s l s' : Inv s -> Counter s -> counter_client s l -> step s l = Some s' -> Counter s'.
Proof.
  intros I P C. destruct l as [t o|t pick|t|t|]; cbn [Wait_model.step].
  - destruct (nth_error (threads s) t) as [p|] eqn:Hp; [|discriminate]. destruct p; try discriminate. intros E. injection E as <-.
    destruct o; cbn [start counter_client] in *; try contradiction; (csimple P Hp; [|csame]); try exact Logic.I.
    + split; reflexivity.
    + split; reflexivity.
  - destruct (nth_error (threads s) t) as [p|] eqn:Hp; [|discriminate]. intros E. eapply run_counter; eassumption.
  - destruct (nth_error (threads s) t) as [p|] eqn:Hp; [|discriminate]. destruct p; try discriminate. intros E. injection E as <-.
    pose proof (ct_pc _ P t _ Hp) as Hpl. csimple P Hp; [exact Hpl|csame].
  - destruct (nth_error (threads s) t) as [p|] eqn:Hp; [|discriminate]. destruct p; try discriminate. destruct dl as [d|]; [|discriminate].
    destruct (d <=? now s) eqn:Ed; [|discriminate]. intros E. injection E as <-.
    pose proof (ct_pc _ P t _ Hp) as Hpl. csimple P Hp; [exact Hpl|csame].
  - intros E. injection E as <-. destruct P as [P1 P2]. constructor; [exact P1|exact P2].
Qed.

Lemma reachable_counter v en n s : reachable counter_client (init v en n) s -> Counter s.
Proof.
  intros H. induction H as [|s l s' R IH C E].
  - constructor; [intros t p Hp; apply nth_repeat in Hp as ->; exact I|]. intros _ _ t p Hp. apply nth_repeat in Hp as ->. discriminate.
  - eapply step_counter; [eapply reachable_inv; exact R|exact IH|exact C|exact E].
Qed.

Lemma counter_wakeup_lemma : forall v en n s t p, reachable counter_client (init v en n) s ->
  nth_error (threads s) t = Some p -> sleeping Main p = true -> enabled s = true -> above (value s) = true ->
  exists u q, nth_error (threads s) u = Some q /\ (awake_taker q || about_to_notify q) = true.
Proof.
  intros v en n s t p R Hp Hs He Ha. destruct (ct_wake _ (reachable_counter _ _ _ _ R) He Ha t p Hp Hs) as (u & q & Hu & Hq).
  exists u, q. split; [exact Hu|]. unfold helper in Hq. destruct q; cbn in *; try discriminate; try reflexivity; rewrite orb_false_r in *; exact Hq.
Qed.

(** ** threads waiting for the threshold *)
Hypothesis exclusive : forall v, above v = true -> reached v = false.

Definition Threshold s : Prop := forall t w dl, nth_error (threads s) t = Some (WSleep w dl) -> w_cv w = Thr -> reached (value s) = false.

Lemma moved_threshold s s' t p p' : Threshold s -> moved s s' t p p' ->
  (forall w dl, p' = WSleep w dl -> w_cv w = Thr -> reached (value s') = false) ->
  (value s' = value s \/ reached (value s') = false \/ forall u q, nth_error (threads s') u = Some q -> sleeping Thr q = false) -> Threshold s'.
Proof.
  intros T M Hp' H u w dl Hu Hc. destruct (mv_thr _ _ _ _ _ M) as (_ & _ & H1 & _).
  destruct (Nat.eq_dec u t) as [->|N].
  - rewrite (mv_self _ _ _ _ _ M) in Hu. injection Hu as ->. eapply Hp'; [reflexivity|exact Hc].
  - destruct H as [H|[H|H]]; [|exact H|].
    + destruct (H1 u _ Hu) as (q0 & H0 & W). rewrite nth_upd_other in H0 by congruence. apply woken_sleep in W. subst q0. rewrite H. eapply T; eassumption.
    + specialize (H u _ Hu). cbn in H. rewrite Hc in H. discriminate.
Qed.

Ltac tsimple P Hp := eapply moved_threshold; [exact P|apply moved_simple; [exact Hp|reflexivity|eff]|try discriminate|try (left; reflexivity)].

Lemma run_threshold t p pick s s' : Inv s -> Counter s -> Threshold s -> nth_error (threads s) t = Some p ->
  (p = ILock -> reached (incr (value s)) = false) -> run above reached incr decr t p pick s = Some s' -> Threshold s'.
Proof.
  intros I C P Hp Hi. pose proof (inv_ok _ I t p Hp) as (Hm & Hs & Hl). pose proof (ct_pc _ C t p Hp) as Hpl.
  destruct p; cbn [run]; cbn [holds_mutex holds_status local] in Hm, Hs, Hl; intros E;
    (first [assert (Hm1 : mutex s = Some t) by (apply Hm; reflexivity)|assert (Hm1 : mutex s <> Some t) by (intros X; apply Hm in X; discriminate)]);
    (first [assert (Hs1 : status s = Some t) by (apply Hs; reflexivity)|assert (Hs1 : status s <> Some t) by (intros X; apply Hs in X; discriminate)]).
  - discriminate.
  - destruct (free (mutex s)) eqn:F; [|discriminate]. apply free_none in F. injection E as <-. tsimple P Hp.
  - destruct (negb (enabled s)) eqn:En; injection E as <-; tsimple P Hp.
  - destruct (condition w s) eqn:Ec; injection E as <-; tsimple P Hp.
    intros w0 dl0 E0 Hc. injection E0 as <- <-. unfold condition in Ec. apply orb_false_iff in Ec as [_ Ec].
    unfold counter_pc in Hpl. cbn [wait_of] in Hpl. destruct (w_take w); destruct Hpl as [Hc' Hpr]; [congruence|]. rewrite <- Hpr. exact Ec.
  - discriminate.
  - destruct (free (mutex s)) eqn:F; [|discriminate]. apply free_none in F. injection E as <-. destruct timedout; tsimple P Hp.
  - injection E as <-. tsimple P Hp.
  - injection E as <-. tsimple P Hp.
  - cbv zeta in E.
    assert (G : forall r, Some (set_pc t (WRet w r) s) = Some s' -> Threshold s') by (clear E; intros r E; injection E as <-; tsimple P Hp).
    destruct (if negb (enabled s) then Disabled else if finished then ConditionMet else Timeout); try (eapply G; exact E).
    destruct (w_take w) eqn:Htk; [|eapply G; exact E]. clear G. unfold decrease in E. set (s1 := set_val _ _) in E.
    destruct (above (value s1)) eqn:Ea; [|destruct (reached (value s1)) eqn:Erch].
    + eapply moved_threshold; [exact P|apply (moved_one Main pick s s1); [exact Hp|reflexivity|reflexivity|exact E|unfold s1; eff]|discriminate|].
      right. left. apply notified_one in E as (l' & -> & _ & _). fields. exact (exclusive _ Ea).
    + injection E as <-. eapply moved_threshold; [exact P|apply (moved_all Thr); [exact Hp|reflexivity|reflexivity|unfold s1; eff]|discriminate|].
      right. right. intros u q Hq. eapply all_awake. exact Hq.
    + injection E as <-. eapply moved_threshold; [exact P|apply moved_simple; [exact Hp|reflexivity|unfold s1; eff]|discriminate|].
      right. left. exact Erch.
  - injection E as <-. tsimple P Hp.
  - contradiction.
  - contradiction.
  - destruct (free (mutex s)) eqn:F; [|discriminate]. apply free_none in F. cbv zeta in E. set (s1 := set_pc t Idle _) in E.
    destruct (above (value s1)) eqn:Ea.
    + eapply moved_threshold; [exact P|apply (moved_one Main pick s s1); [exact Hp|reflexivity|reflexivity|exact E|unfold s1; eff]|discriminate|].
      right. left. apply notified_one in E as (l' & -> & _ & _). fields. exact (exclusive _ Ea).
    + injection E as <-. eapply moved_threshold; [exact P|apply moved_simple; [exact Hp|reflexivity|unfold s1; eff]|discriminate|].
      right. left. unfold s1. fields. apply Hi. reflexivity.
  - destruct (free (mutex s)) eqn:F; [|discriminate]. apply free_none in F. injection E as <-. tsimple P Hp.
  - destruct (free (status s)) eqn:F; [|discriminate]. apply free_none in F. injection E as <-. destruct k; tsimple P Hp.
  - injection E as <-. destruct (enabled s); tsimple P Hp.
  - destruct (enabled s); injection E as <-; [tsimple P Hp|]. unfold after_disable. destruct k; tsimple P Hp.
  - destruct (free (mutex s)) eqn:F; [|discriminate]. apply free_none in F. injection E as <-. tsimple P Hp.
  - injection E as <-. unfold after_disable. destruct k;
      (eapply moved_threshold; [exact P|apply (moved_all Main); [exact Hp|reflexivity|reflexivity|eff]|discriminate|left; reflexivity]).
  - destruct (waiting s); [destruct k|]; injection E as <-; tsimple P Hp.
  - destruct (free (mutex s)) eqn:F; [|discriminate]. apply free_none in F. injection E as <-. tsimple P Hp.
  - injection E as <-. eapply moved_threshold; [exact P|apply (moved_all Main); [exact Hp|reflexivity|reflexivity|eff]|discriminate|left; reflexivity].
  - destruct (enabled s); injection E as <-; tsimple P Hp.
  - destruct (free (mutex s)) eqn:F; [|discriminate]. apply free_none in F. injection E as <-. tsimple P Hp.
Qed.

Lemma step_threshold s l s' : Inv s -> Counter s -> Threshold s -> threshold_client reached incr s l -> step s l = Some s' -> Threshold s'.
Proof.
  intros I C P [_ A]. destruct l as [t o|t pick|t|t|]; cbn [Wait_model.step].
  - destruct (nth_error (threads s) t) as [p|] eqn:Hp; [|discriminate]. destruct p; try discriminate. intros E. injection E as <-.
    destruct o; cbn [start]; tsimple P Hp.
  - destruct (nth_error (threads s) t) as [p|] eqn:Hp; [|discriminate]. intros E. eapply run_threshold; try eassumption.
    intros ->. exact (A eq_refl).
  - destruct (nth_error (threads s) t) as [p|] eqn:Hp; [|discriminate]. destruct p; try discriminate. intros E. injection E as <-. tsimple P Hp.
  - destruct (nth_error (threads s) t) as [p|] eqn:Hp; [|discriminate]. destruct p; try discriminate. destruct dl as [d|]; [|discriminate].
    destruct (d <=? now s) eqn:Ed; [|discriminate]. intros E. injection E as <-. tsimple P Hp.
  - intros E. injection E as <-. exact P.
Qed.

Lemma reachable_weaken (A B : state V -> label V -> Prop) s0 s : (forall x l, A x l -> B x l) -> reachable A s0 s -> reachable B s0 s.
Proof. intros H R. induction R as [|x l x' R IH C E]; [constructor|]. econstructor; [exact IH|apply H; exact C|exact E]. Qed.

Lemma threshold_wakeup_lemma : forall v en n s t w dl, reachable (threshold_client reached incr) (init v en n) s ->
  nth_error (threads s) t = Some (WSleep w dl) -> w_cv w = Thr -> reached (value s) = false.
Proof.
  intros v en n s t w dl R. revert t w dl. change (Threshold s). induction R as [|s l s' R IH C E].
  - intros t w dl Hp. apply nth_repeat in Hp. discriminate.
  - eapply step_threshold; [eapply reachable_inv; exact R|eapply reachable_counter|exact IH|exact C|exact E].
    eapply reachable_weaken; [|exact R]. intros x y [H _]. exact H.
Qed.

(** ** C34 *)
Lemma loop_no_sleeper_lemma : forall v en n s t p, reachable anything (init v en n) s ->
  nth_error (threads s) t = Some p -> in_disable_loop p = true ->
  enabled s = false /\ forall u q, nth_error (threads s) u = Some q -> sleeping Main q = false.
Proof.
  intros v en n s t p R Hp Hl. pose proof (reachable_inv _ _ _ _ _ R) as I. destruct (inv_ok _ I t p Hp) as (_ & Hs & Hloc).
  assert (He : enabled s = false /\ status s = Some t) by (destruct p; try discriminate; (split; [apply Hloc|apply Hs; reflexivity])).
  destruct He as [He St]. split; [exact He|]. destruct (inv_sleep _ I He) as [(x & k' & Hx)|Hn]; [|exact Hn].
  destruct (inv_ok _ I x _ Hx) as (_ & Hsx & _). assert (St' : status s = Some x) by (apply Hsx; reflexivity).
  rewrite St in St'. injection St' as ->. rewrite Hp in Hx. injection Hx as ->. discriminate.
Qed.

Lemma thr_stays t p pick s s' u w dl : enabled s = false -> t <> u -> nth_error (threads s) u = Some (WSleep w dl) -> w_cv w = Thr ->
  run above reached incr decr t p pick s = Some s' -> nth_error (threads s') u = Some (WSleep w dl).
Proof.
  intros He N Hu Hc E.
  assert (A : forall s1, threads s1 = threads s -> forall q, nth_error (threads (set_pc t q s1)) u = Some (WSleep w dl)).
  { intros s1 H1 q. cbn. rewrite H1, nth_upd_other by exact N. exact Hu. }
  assert (B : forall s1, nth_error (threads s1) u = Some (WSleep w dl) -> nth_error (threads (notify_all Main s1)) u = Some (WSleep w dl)).
  { intros s1 H1. cbn. rewrite nth_error_map, H1. cbn. rewrite Hc. reflexivity. }
  assert (D : forall s1 s2, nth_error (threads s1) u = Some (WSleep w dl) -> notify_one Main pick s1 = Some s2 -> nth_error (threads s2) u = Some (WSleep w dl)).
  { intros s1 s2 H1 H2. apply notified_one in H2 as (l' & -> & _ & [[_ ->]|(q & Hq & Hqs & ->)]); [exact H1|]. cbn.
    destruct (Nat.eq_dec pick u) as [->|Np]; [|rewrite nth_upd_other by exact Np; exact H1].
    rewrite H1 in Hq. injection Hq as <-. cbn in Hqs. rewrite Hc in Hqs. discriminate. }
  destruct p; cbn [run] in E; try discriminate;
    repeat match goal with
    | H : (if free ?m then _ else None) = Some _ |- _ => destruct (free m); [|discriminate]
    end; cbv zeta in E; rewrite ?He in E; cbn [negb] in E.
  all: try (injection E as <-).
  all: try (apply A; reflexivity).
  - destruct (condition w0 s); injection E as <-; apply A; reflexivity.
  - apply B. apply A. reflexivity.
  - match type of E with (if above ?v then _ else _) = _ => destruct (above v) end; [|injection E as <-; apply A; reflexivity].
    eapply D; [|exact E]. apply A. reflexivity.
  - unfold after_disable. destruct k; apply A; reflexivity.
  - apply B. unfold after_disable. destruct k; apply A; reflexivity.
  - destruct (waiting s); [destruct k|]; injection E as <-; apply A; reflexivity.
  - apply B. apply A. reflexivity.
Qed.

Lemma awake_stays t p pick s s' u q : t <> u -> nth_error (threads s) u = Some q -> (forall c, sleeping c q = false) ->
  run above reached incr decr t p pick s = Some s' -> nth_error (threads s') u = Some q.
Proof.
  intros N Hu Hq E.
  assert (W : forall c, wake c q = q). { intros c. specialize (Hq c). destruct q; cbn in *; try reflexivity. rewrite Hq. reflexivity. }
  assert (A : forall s1, threads s1 = threads s -> forall q', nth_error (threads (set_pc t q' s1)) u = Some q).
  { intros s1 H1 q'. cbn. rewrite H1, nth_upd_other by exact N. exact Hu. }
  assert (B : forall c s1, nth_error (threads s1) u = Some q -> nth_error (threads (notify_all c s1)) u = Some q).
  { intros c s1 H1. cbn. rewrite nth_error_map, H1. cbn. rewrite W. reflexivity. }
  assert (D : forall s1 s2, nth_error (threads s1) u = Some q -> notify_one Main pick s1 = Some s2 -> nth_error (threads s2) u = Some q).
  { intros s1 s2 H1 H2. apply notified_one in H2 as (l' & -> & _ & [[_ ->]|(q' & Hq' & Hqs & ->)]); [exact H1|]. cbn.
    destruct (Nat.eq_dec pick u) as [->|Np]; [|rewrite nth_upd_other by exact Np; exact H1].
    rewrite H1 in Hq'. injection Hq' as <-. rewrite Hq in Hqs. discriminate. }
  destruct p; cbn [run] in E; try discriminate;
    repeat match goal with
    | H : (if free ?m then _ else None) = Some _ |- _ => destruct (free m); [|discriminate]
    end; cbv zeta in E.
  all: try (injection E as <-).
  all: try (apply A; reflexivity).
  - destruct (negb (enabled s)); injection E as <-; apply A; reflexivity.
  - destruct (condition w s); injection E as <-; apply A; reflexivity.
  - assert (G : forall r, Some (set_pc t (WRet w r) s) = Some s' -> nth_error (threads s') u = Some q) by (clear E; intros r E; injection E as <-; apply A; reflexivity).
    destruct (if negb (enabled s) then Disabled else if finished then ConditionMet else Timeout); try (eapply G; exact E).
    destruct (w_take w); [|eapply G; exact E]. unfold decrease in E. cbv zeta in E.
    match type of E with (if above ?v then _ else _) = _ => destruct (above v) end; [eapply D; [|exact E]; apply A; reflexivity|].
    match type of E with (if reached ?v then _ else _) = _ => destruct (reached v) end; injection E as <-; [apply B|]; apply A; reflexivity.
  - apply B. apply A. reflexivity.
  - match type of E with (if above ?v then _ else _) = _ => destruct (above v) end; [|injection E as <-; apply A; reflexivity].
    eapply D; [|exact E]. apply A. reflexivity.
  - destruct (enabled s); injection E as <-; [apply A; reflexivity|]. unfold after_disable. destruct k; apply A; reflexivity.
  - apply B. unfold after_disable. destruct k; apply A; reflexivity.
  - destruct (waiting s); [destruct k|]; injection E as <-; apply A; reflexivity.
  - apply B. apply A. reflexivity.
  - destruct (enabled s); injection E as <-; apply A; reflexivity.
Qed.

Lemma nth_in_count (f : pc V -> bool) l i x : nth_error l i = Some x -> f x = true -> 0 < length (filter f l).
Proof.
  revert i. induction l as [|y l IH]; intros i Hi Hf; [destruct i; discriminate|]. destruct i as [|i]; cbn in *.
  - injection Hi as ->. rewrite Hf. cbn. apply Nat.lt_0_succ.
  - specialize (IH i Hi Hf). destruct (f y); cbn; [apply Nat.lt_0_succ|exact IH].
Qed.

Definition Stuck t u s : Prop :=
  Inv s /\ t <> u /\ (exists p, nth_error (threads s) t = Some p /\ in_disable_loop p = true) /\
  exists w, nth_error (threads s) u = Some (WSleep w None) /\ w_cv w = Thr.

Lemma stuck_enabled t u s : Stuck t u s -> enabled s = false /\ status s = Some t.
Proof.
  intros (I & _ & (p & Hp & Hl) & _). destruct (inv_ok _ I t p Hp) as (_ & Hs & Hloc).
  destruct p; try discriminate; (split; [apply Hloc|apply Hs; reflexivity]).
Qed.

Lemma stuck_step t u s l s' : Stuck t u s -> l <> Spurious u -> step s l = Some s' -> Stuck t u s'.
Proof.
  intros S Hl E. pose proof (stuck_enabled _ _ _ S) as [He St]. destruct S as (I & N & (p & Hp & Hloop) & w & Hw & Hc).
  split; [eapply step_inv; eassumption|]. split; [exact N|].
  destruct l as [x o|x pick|x|x|]; cbn [Wait_model.step] in E.
  - destruct (nth_error (threads s) x) as [q|] eqn:Hx; [|discriminate]. destruct q; try discriminate. injection E as <-.
    assert (x <> t) by (intros ->; rewrite Hp in Hx; injection Hx as ->; discriminate).
    assert (x <> u) by (intros ->; rewrite Hw in Hx; discriminate).
    split; [exists p|exists w]; cbn; rewrite nth_upd_other by assumption; split; assumption.
  - destruct (nth_error (threads s) x) as [q|] eqn:Hx; [|discriminate].
    assert (Nu : x <> u) by (intros ->; rewrite Hw in Hx; injection Hx as <-; discriminate).
    split; [|exists w; split; [eapply thr_stays; eassumption|exact Hc]].
    destruct (Nat.eq_dec x t) as [->|Nt].
    + rewrite Hp in Hx. injection Hx as <-.
      assert (Hw' : waiting s <> 0). { rewrite (inv_count _ I). pose proof (nth_in_count counted _ u _ Hw eq_refl). unfold count. lia. }
      destruct p; try discriminate; cbn [run] in E.
      * destruct (waiting s) as [|n]; [contradiction|]. injection E as <-. exists (BMutex k). cbn. rewrite (nth_upd_same _ _ _ _ Hp). split; reflexivity.
      * destruct (free (mutex s)); [|discriminate]. injection E as <-. exists (BNotify k). cbn. rewrite (nth_upd_same _ _ _ _ Hp). split; reflexivity.
      * injection E as <-. exists (BLoop k). cbn. rewrite nth_error_map, (nth_upd_same _ _ _ _ Hp). split; reflexivity.
    + exists p. split; [|exact Hloop]. eapply awake_stays; [exact Nt|exact Hp| |exact E]. intros c. destruct p; try discriminate; reflexivity.
  - destruct (nth_error (threads s) x) as [q|] eqn:Hx; [|discriminate]. destruct q; try discriminate. injection E as <-.
    assert (x <> t) by (intros ->; rewrite Hp in Hx; injection Hx as ->; discriminate).
    assert (x <> u) by (intros ->; apply Hl; reflexivity).
    split; [exists p|exists w]; cbn; rewrite nth_upd_other by assumption; split; assumption.
  - destruct (nth_error (threads s) x) as [q|] eqn:Hx; [|discriminate]. destruct q; try discriminate. destruct dl as [d|]; [|discriminate].
    destruct (d <=? now s); [|discriminate]. injection E as <-.
    assert (x <> t) by (intros ->; rewrite Hp in Hx; injection Hx as ->; discriminate).
    assert (x <> u) by (intros ->; rewrite Hw in Hx; discriminate).
    split; [exists p|exists w]; cbn; rewrite nth_upd_other by assumption; split; assumption.
  - injection E as <-. split; [exists p|exists w]; split; assumption.
Qed.

Lemma stuck_steps t u : forall ls s s', Stuck t u s -> (forall l, In l ls -> l <> Spurious u) -> steps above reached incr decr s ls = Some s' -> Stuck t u s'.
Proof.
  induction ls as [|l ls IH]; intros s s' S Hl E; cbn [steps] in E; [injection E as <-; exact S|].
  destruct (Wait_model.step above reached incr decr s l) as [s1|] eqn:E1; [|discriminate].
  eapply IH; [eapply stuck_step; [exact S|apply Hl; left; reflexivity|exact E1]|intros l' H'; apply Hl; right; exact H'|exact E].
Qed.

Lemma steps_reachable : forall ls s0 s s', reachable anything s0 s -> steps above reached incr decr s ls = Some s' -> reachable anything s0 s'.
Proof.
  induction ls as [|l ls IH]; intros s0 s s' R E; cbn [steps] in E; [injection E as <-; exact R|].
  destruct (Wait_model.step above reached incr decr s l) as [s1|] eqn:E1; [|discriminate].
  eapply IH; [|exact E]. econstructor; [exact R|exact I|exact E1].
Qed.
End Proofs.

(** ** Counterexamples *)
Definition stuck_schedule : list (label N) :=
  [Call 0 (WaitThreshold 0); Run 0 0; Run 0 0; Run 0 0; Call 1 (Control Kblocking); Run 1 0; Run 1 0; Run 1 0; Run 1 0].

Lemma stuck_lemma : exists ls s, c_steps 0 (init 1%N true 2) ls = Some s /\
  forall ls' s', (forall l, In l ls' -> l <> Spurious 0) -> c_steps 0 s ls' = Some s' ->
    (exists w, nth_error (threads s') 0 = Some (WSleep w None)) /\
    (exists p, nth_error (threads s') 1 = Some p /\ in_disable_loop p = true).
Proof.
  exists stuck_schedule. eexists. split; [vm_compute; reflexivity|]. intros ls' s' Hl E.
  set (s := Build_state _ _ _ _ _ _ _ _ _) in E.
  assert (R : reachable (c_above 0) (c_reached 0) c_incr c_decr anything (init 1%N true 2) s).
  { eapply steps_reachable; [constructor|]. instantiate (1 := stuck_schedule). vm_compute. reflexivity. }
  assert (S0 : Stuck N c_decr 1 0 s).
  { split; [eapply reachable_inv; exact R|]. split; [discriminate|]. split.
    - exists (BLoop Kblocking). split; reflexivity.
    - eexists. split; reflexivity. }
  pose proof (stuck_steps _ _ _ _ _ 1 0 ls' s s' S0 Hl E) as (_ & _ & Hp & w & Hw & _).
  split; [exists w; exact Hw|exact Hp].
Qed.

(** blocking_disable reads the number of waiting threads without the mutex *)
Definition left_schedule : list (label N) :=
  [Call 0 (WaitAndDecrement 0); Run 0 0; Run 0 0; Run 0 0; Call 1 (Control Kblocking); Run 1 0; Run 1 0; Run 1 0; Run 1 0;
   Run 0 0; Run 0 0; Run 0 0; Run 1 0].

Lemma left_behind_lemma : exists ls l s s' p, c_steps 0 (init 0%N true 2) ls = Some s /\ c_step 0 s l = Some s' /\
  log s' = EvDone 1 Kblocking :: log s /\ nth_error (threads s') 0 = Some p /\ inside_wait p = true /\ mutex s' = Some 0.
Proof.
  exists (removelast left_schedule), (Run 1 0). eexists. eexists. eexists.
  split; [vm_compute; reflexivity|]. split; [vm_compute; reflexivity|]. split; [reflexivity|]. split; [reflexivity|]. split; reflexivity.
Qed.

(** an increment that reaches the threshold notifies nobody *)
Definition reach_schedule : list (label N) :=
  [Call 0 (WaitThreshold 0); Run 0 0; Run 0 0; Run 0 0; Call 1 Increment; Run 1 0; Call 1 Increment; Run 1 0].

Lemma lost_threshold_lemma : exists ls s w, c_steps 5 (init 3%N true 2) ls = Some s /\
  enabled s = true /\ nth_error (threads s) 0 = Some (WSleep w None) /\ w_pred w (value s) = true /\
  nth_error (threads s) 1 = Some Idle /\ length (threads s) = 2.
Proof.
  exists reach_schedule. eexists. eexists. split; [vm_compute; reflexivity|]. split; [reflexivity|]. split; [reflexivity|]. split; [vm_compute; reflexivity|].
  split; reflexivity.
Qed.
