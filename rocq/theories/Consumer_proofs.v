(** Proofs about producers and consumers. *)
From Coq Require Import NArith List Bool Arith Lia ZifyBool ZifyNat ZifyN.
From Verif Require Import Wait_spec Wait_proofs Consumer_model Consumer_spec.
Import ListNotations.

(** ** Steps of the counter *)
Section Counter.
Variables (V : Type) (above reached : V -> bool) (incr decr : V -> V).
Implicit Types s : state V.
Implicit Types p : pc V.

Definition moves s s' (t : nat) p p' : Prop :=
  (wait_of V p' = wait_of V p \/ p' = Idle) /\ p' <> ILock /\
  (p' = Idle -> wait_of V p = None \/ exists w r, p = WRet w r) /\
  match p with
  | ILock => p' = Idle /\ value s' = incr (value s)
  | WReason w _ _ => (p' = WRet w ConditionMet /\ w_take w = true /\ above (value s) = true /\ value s' = decr (value s)) \/
      (value s' = value s /\ exists r, p' = WRet w r /\ (r = ConditionMet -> w_take w = false))
  | WRet w r => p' = Idle /\ value s' = value s /\ log s' = EvReturn t w r :: log s
  | _ => value s' = value s /\ forall w, p' <> WRet w ConditionMet
  end.

Ltac fields := cbn [value enabled waiting mutex status threads now log set_pc set_threads set_mutex set_status set_val set_enabled set_waiting set_now emit finish notify_all] in *.

Ltac same p' Hp := exists p'; split; [fields; apply notified_id|split; [fields; eapply nth_upd_same; exact Hp|
  split; [first [left; reflexivity|right; reflexivity]|split; [discriminate|split; [first [intros; discriminate|intros _; left; reflexivity|intros _; right; eexists; eexists; reflexivity]|]]]]].

Lemma run_moves t p pick s s' : Inv V decr s -> Counter V above reached s -> nth_error (threads s) t = Some p ->
  run above reached incr decr t p pick s = Some s' ->
  exists p', notified V (upd (threads s) t p') (threads s') /\ nth_error (threads s') t = Some p' /\ moves s s' t p p'.
Proof.
  intros I C Hp E. pose proof (inv_ok _ _ _ I t p Hp) as (_ & _ & Hl). pose proof (ct_pc _ _ _ _ C t p Hp) as Hpl.
  assert (One : forall s1, notify_one Main pick s1 = Some s' -> forall p', threads s1 = upd (threads s) t p' -> sleeping Main p' = false ->
    notified V (upd (threads s) t p') (threads s') /\ nth_error (threads s') t = Some p' /\ value s' = value s1 /\ log s' = log s1).
  { intros s1 N p' Ht Hs. apply notified_one in N as (l' & -> & Hn & Hc). fields. rewrite <- Ht. split; [exact Hn|]. split; [|split; reflexivity].
    destruct Hc as [[_ ->]|(q & Hq & Hqs & ->)].
    - rewrite Ht. eapply nth_upd_same. exact Hp.
    - rewrite Ht in *. destruct (Nat.eq_dec pick t) as [->|Ne].
      + rewrite (nth_upd_same _ _ _ p) in Hq by exact Hp. injection Hq as <-. congruence.
      + rewrite nth_upd_other by exact Ne. eapply nth_upd_same. exact Hp. }
  assert (All : forall c p', sleeping c p' = false ->
    notified V (upd (threads s) t p') (map (wake c) (upd (threads s) t p')) /\ nth_error (map (wake c) (upd (threads s) t p')) t = Some p').
  { intros c p' Hs. split; [apply notified_all|]. rewrite nth_error_map, (nth_upd_same _ _ _ p) by exact Hp. cbn. rewrite wake_id by exact Hs. reflexivity. }
  destruct p; cbn [run] in E; try discriminate;
    repeat match goal with
    | H : (if free ?m then _ else None) = Some _ |- _ => destruct (free m); [|discriminate]
    end; cbv zeta in E; try contradiction.
  - injection E as <-. same (WCheck w) Hp. split; [reflexivity|discriminate].
  - destruct (negb (enabled s)); injection E as <-; [same (WRet w Disabled) Hp|eexists; split; [fields; apply notified_id|split; [fields; eapply nth_upd_same; exact Hp|split; [left; reflexivity|split; [discriminate|split; [intros; discriminate|]]]]]].
    + split; [reflexivity|]. intros w0 X. discriminate.
    + split; [reflexivity|]. intros w0 X. discriminate.
  - destruct (condition w s); injection E as <-; [same (WExit w dl true) Hp|same (WSleep w dl) Hp]; (split; [reflexivity|discriminate]).
  - injection E as <-. destruct timedout; [same (WFinal w dl) Hp|same (WTest w dl) Hp]; (split; [reflexivity|discriminate]).
  - injection E as <-. eexists. split; [fields; apply notified_id|split; [fields; eapply nth_upd_same; exact Hp|split; [left; reflexivity|split; [discriminate|split; [intros; discriminate|]]]]].
    split; [reflexivity|discriminate].
  - injection E as <-. same (WReason w dl finished) Hp. split; [reflexivity|discriminate].
  - destruct Hl as (_ & Hcd & _). unfold condition in Hcd. unfold counter_pc in Hpl. cbn [wait_of] in Hpl.
    assert (G : forall r, (r = ConditionMet -> w_take w = false) -> Some (set_pc t (WRet w r) s) = Some s' ->
      exists p', notified V (upd (threads s) t p') (threads s') /\ nth_error (threads s') t = Some p' /\ moves s s' t (WReason w dl finished) p').
    { clear E. intros r Hr E. injection E as <-. same (WRet w r) Hp. right. split; [reflexivity|]. exists r. split; [reflexivity|exact Hr]. }
    destruct (enabled s) eqn:En; cbn [negb] in E; [|apply (G Disabled); [discriminate|exact E]].
    destruct finished; [|apply (G Timeout); [discriminate|exact E]].
    destruct (w_take w) eqn:Htk; [|apply (G ConditionMet); [reflexivity|exact E]]. clear G. destruct Hpl as [_ Hpr]. rewrite Hpr in Hcd. cbn in Hcd.
    unfold decrease in E. set (s1 := set_val _ _) in E. exists (WRet w ConditionMet).
    assert (M : value s' = decr (value s) -> moves s s' t (WReason w dl true) (WRet w ConditionMet)).
    { intros Hv. split; [left; reflexivity|]. split; [discriminate|]. split; [intros; discriminate|]. left. split; [reflexivity|]. split; [exact Htk|]. split; [exact Hcd|exact Hv]. }
    destruct (above (value s1)); [|destruct (reached (value s1))].
    + destruct (One s1 E (WRet w ConditionMet)) as (H1 & H2 & H3 & _); [reflexivity|reflexivity|]. split; [exact H1|]. split; [exact H2|]. apply M. rewrite H3. reflexivity.
    + injection E as <-. destruct (All Thr (WRet w ConditionMet) eq_refl) as [H1 H2]. split; [exact H1|]. split; [exact H2|]. apply M. reflexivity.
    + injection E as <-. split; [unfold s1; fields; apply notified_id|]. split; [unfold s1; fields; eapply nth_upd_same; exact Hp|]. apply M. reflexivity.
  - injection E as <-. same (@Idle V) Hp. split; [reflexivity|]. split; reflexivity.
  - exists Idle. set (s1 := set_pc t Idle _) in E.
    assert (M : value s' = incr (value s) -> moves s s' t ILock Idle).
    { intros Hv. split; [left; reflexivity|]. split; [discriminate|]. split; [left; reflexivity|]. split; [reflexivity|exact Hv]. }
    destruct (above (value s1)).
    + destruct (One s1 E Idle) as (H1 & H2 & H3 & _); [reflexivity|reflexivity|]. split; [exact H1|]. split; [exact H2|]. apply M. rewrite H3. reflexivity.
    + injection E as <-. split; [unfold s1; fields; apply notified_id|]. split; [unfold s1; fields; eapply nth_upd_same; exact Hp|]. apply M. reflexivity.
  - injection E as <-. same (@Idle V) Hp. split; [reflexivity|discriminate].
  - injection E as <-. destruct k; [same (@ETest V Kenable) Hp|same (@DTest V Kdisable) Hp|same (@DTest V Kblocking) Hp|same (@STest V) Hp]; (split; [reflexivity|discriminate]).
  - injection E as <-. destruct (enabled s); [same (@DTest V Kstop) Hp|same (@ETest V Kstop) Hp]; (split; [reflexivity|discriminate]).
  - destruct (enabled s); injection E as <-; [same (@DStore V k) Hp; split; [reflexivity|discriminate]|].
    unfold after_disable. destruct k; [same (@BLoop V Kenable) Hp|same (@Idle V) Hp|same (@BLoop V Kblocking) Hp|same (@BLoop V Kstop) Hp]; (split; [reflexivity|discriminate]).
  - injection E as <-. same (@DNotify V k) Hp. split; [reflexivity|discriminate].
  - injection E as <-. unfold after_disable.
    assert (W : forall (p' : pc V), sleeping Main p' = false -> wait_of V p' = None -> p' <> ILock ->
      notified V (upd (threads s) t p') (map (wake Main) (upd (threads s) t p')) /\ nth_error (map (wake Main) (upd (threads s) t p')) t = Some p' /\
      (wait_of V p' = None \/ p' = Idle) /\ p' <> ILock /\ (p' = Idle -> @None (wait_call V) = None \/ exists w r, @DNotify V k = WRet w r)).
    { intros p' A1 A2 A3. destruct (All Main p' A1) as [H1 H2]. split; [exact H1|]. split; [exact H2|]. split; [left; exact A2|]. split; [exact A3|]. intros _. left. reflexivity. }
    destruct k; [exists (BLoop Kenable)|exists Idle|exists (BLoop Kblocking)|exists (BLoop Kstop)]; (edestruct W as (W1 & W2 & W3 & W4 & W5); [| | |split; [exact W1|split; [exact W2|split; [exact W3|split; [exact W4|split; [exact W5|split; [reflexivity|discriminate]]]]]]]); try reflexivity; discriminate.
  - destruct (waiting s); [destruct k|]; injection E as <-; first [same (@Idle V) Hp|same (@ETest V Kstop) Hp|same (@BMutex V k) Hp]; (split; [reflexivity|discriminate]).
  - injection E as <-. same (@BNotify V k) Hp. split; [reflexivity|discriminate].
  - injection E as <-. destruct (All Main (BLoop k) eq_refl) as [H1 H2]. exists (BLoop k). split; [exact H1|]. split; [exact H2|].
    split; [left; reflexivity|]. split; [discriminate|]. split; [discriminate|]. split; [reflexivity|discriminate].
  - destruct (enabled s); injection E as <-; [same (@Idle V) Hp|same (@EStore V k) Hp]; (split; [reflexivity|discriminate]).
  - injection E as <-. same (@Idle V) Hp. split; [reflexivity|discriminate].
Qed.
End Counter.

Lemma count_pointwise {A} (f : A -> bool) : forall l l' : list A, length l' = length l ->
  (forall u p q, nth_error l u = Some p -> nth_error l' u = Some q -> f q = f p) -> count f l' = count f l.
Proof.
  induction l as [|x l IH]; intros [|y l'] L H; try discriminate; [reflexivity|]. rewrite !count_cons.
  rewrite (H 0 x y eq_refl eq_refl). rewrite (IH l'); [reflexivity| |]; [cbn in L; lia|]. intros u p q Hp Hq. exact (H (S u) p q Hp Hq).
Qed.

Lemma notified_count {V} (f : pc V -> bool) l l' : notified V l l' -> (forall p q, woken V p q -> f q = f p) -> count f l' = count f l.
Proof.
  intros (L & _ & H1 & _) Hf. apply count_pointwise; [exact L|]. intros u p q Hp Hq. destruct (H1 u q Hq) as (p0 & Hp0 & W).
  rewrite Hp in Hp0. injection Hp0 as <-. exact (Hf p q W).
Qed.

Section Proofs.
Variable T : Type.
Implicit Types s : cstate T.

Notation hreach v en n := (reachable (c_above 0) (c_reached 0) c_incr c_decr counter_client (init v en n)).

(** ** The invariant of every execution *)
Definition tie (g : stage T) (p : pc N) : Prop :=
  match g with
  | SIncrement => p = ILock
  | SWait => exists w, wait_of N p = Some w /\ w_take w = true
  | SOther => p <> ILock /\ p <> Idle /\ forall w, wait_of N p = Some w -> w_take w = false
  | _ => p = Idle
  end.

Definition holds_pop (g : stage T) : bool :=
  match g with SEmpty | SSwap | SEmpty2 | SFront | SDrop _ => true | _ => false end.

Definition queue_ok (fg : list T) (g : stage T) : Prop :=
  match g with
  | SSwap => fg = []
  | SFront => fg <> []
  | SDrop x => exists fg', fg = x :: fg'
  | _ => True
  end.

Lemma values_cons (r : result T) rs : values (r :: rs) = values rs ++ match r with RValue _ x => [x] | _ => [] end.
Proof.
  unfold values. cbn [fold_left].
  assert (G : forall l (acc : list T), fold_left (fun l r => match r with RValue _ x => x :: l | _ => l end) l acc =
    fold_left (fun l r => match r with RValue _ x => x :: l | _ => l end) l [] ++ acc).
  { induction l as [|a l IH]; intros acc; cbn; [reflexivity|]. rewrite IH, (IH (match a with RValue _ x => [x] | _ => [] end)).
    rewrite <- app_assoc. f_equal. destruct a; reflexivity. }
  rewrite G. destruct r; reflexivity.
Qed.

Record CInv v en n s : Prop := {
  ci_handler : hreach v en n (handler s);
  ci_length : length (stages s) = length (threads (handler s));
  ci_tie : forall t g p, nth_error (stages s) t = Some g -> nth_error (threads (handler s)) t = Some p -> tie g p;
  ci_pop : forall t g, nth_error (stages s) t = Some g -> (holds_pop g = true <-> pop_mutex s = Some t);
  ci_owner : forall t, pop_mutex s = Some t -> t < length (stages s);
  ci_queue : forall t g, nth_error (stages s) t = Some g -> queue_ok (foreground s) g;
  ci_order : produced s = consumed s ++ foreground s ++ background s }.

Lemma tie_woken g p q : woken N p q -> tie g p -> tie g q.
Proof.
  intros W H. destruct g; cbn [tie] in *; try (subst p; apply woken_awake in W; [exact W|discriminate]).
  - destruct H as (w & Hw & Ht). exists w. rewrite (woken_wait _ _ _ W). split; assumption.
  - destruct H as (H1 & H2 & H3). split; [|split].
    + intros ->. destruct W as [<-|(c & _ & E)]; [congruence|]. destruct p; try discriminate; try (apply H1; symmetry; exact E).
      cbn in E. destruct (cv_eqb (w_cv w) c); discriminate.
    + intros ->. destruct W as [<-|(c & _ & E)]; [congruence|]. destruct p; try discriminate; try (apply H2; symmetry; exact E).
      cbn in E. destruct (cv_eqb (w_cv w) c); discriminate.
    + intros w Hw. rewrite (woken_wait _ _ _ W) in Hw. exact (H3 w Hw).
Qed.

(** changing the stage of one thread *)
Lemma stage_all {A} (P : nat -> A -> Prop) l t x : (forall u g, u <> t -> nth_error l u = Some g -> P u g) -> P t x ->
  forall u g, nth_error (upd l t x) u = Some g -> P u g.
Proof.
  intros H Hx u g Hg. destruct (Nat.eq_dec t u) as [<-|N].
  - destruct (nth_error l t) as [y|] eqn:Hy; [rewrite (nth_upd_same _ _ _ y Hy) in Hg; injection Hg as <-; exact Hx|].
    exfalso. apply nth_error_None in Hy. assert (t < length (upd l t x)) by (apply nth_error_Some; congruence). rewrite upd_length in *. lia.
  - rewrite nth_upd_other in Hg by exact N. apply H; [congruence|exact Hg].
Qed.

(** a step inside the handler that changes only [t], at most waking others *)
Lemma cinv_handler v en n s h t p p' g' : CInv v en n s -> hreach v en n h ->
  nth_error (threads (handler s)) t = Some p -> notified N (upd (threads (handler s)) t p') (threads h) -> nth_error (threads h) t = Some p' ->
  tie g' p' -> holds_pop g' = false -> (forall g, nth_error (stages s) t = Some g -> holds_pop g = false) -> queue_ok (foreground s) g' ->
  CInv v en n (set_stage t g' (set_handler h s)).
Proof.
  intros C R Hp Hn Hp' Ht Hg' Hg Hq. destruct C as [C1 C2 C3 C4 C5 C6 C7]. pose proof Hn as (L & _ & H1 & _).
  constructor; cbn [handler set_stage set_handler stages pop_mutex foreground background produced consumed results] in *.
  - exact R.
  - rewrite upd_length, C2, L, upd_length. reflexivity.
  - intros u g q Hu Hq'. revert u g Hu q Hq'.
    apply (stage_all (fun u g => forall q, nth_error (threads h) u = Some q -> tie g q)).
    + intros u g N Hu q Hq'. destruct (H1 u q Hq') as (q0 & H0 & W). rewrite nth_upd_other in H0 by congruence.
      eapply tie_woken; [exact W|exact (C3 u g q0 Hu H0)].
    + intros q Hq'. rewrite Hp' in Hq'. injection Hq' as <-. exact Ht.
  - apply (stage_all (fun u g => holds_pop g = true <-> pop_mutex s = Some u)); [intros u g N Hu; exact (C4 u g Hu)|].
    rewrite Hg'. split; [discriminate|]. intros X. pose proof (C5 t X) as Ht5. apply nth_error_Some in Ht5.
    destruct (nth_error (stages s) t) as [g|] eqn:E; [|contradiction]. specialize (Hg g eq_refl). apply (proj2 (C4 t g E)) in X. congruence.
  - intros u Hu. rewrite upd_length. exact (C5 u Hu).
  - apply stage_all; [intros u g N Hu; exact (C6 u g Hu)|exact Hq].
  - exact C7.
Qed.

(** ... or nothing but the clock *)
Lemma cinv_tick v en n s h : CInv v en n s -> hreach v en n h -> threads h = threads (handler s) -> CInv v en n (set_handler h s).
Proof.
  intros [C1 C2 C3 C4 C5 C6 C7] R E. constructor; cbn [handler set_stage set_handler stages pop_mutex foreground background produced consumed results] in *; try assumption.
  - rewrite E. exact C2.
  - rewrite E. exact C3.
Qed.

(** a step of the thread [t] in the queue *)
Lemma cinv_queue v en n s t g g' fg bg pop rs :
  CInv v en n s -> nth_error (stages s) t = Some g ->
  (forall p, tie g p -> tie g' p) ->
  (holds_pop g = true \/ pop_mutex s = None) ->
  pop = (if holds_pop g' then Some t else None) ->
  (holds_pop g = true \/ fg = foreground s) ->
  queue_ok fg g' ->
  produced s = values rs ++ fg ++ bg ->
  CInv v en n {| handler := handler s; foreground := fg; background := bg; pop_mutex := pop; stages := upd (stages s) t g';
    produced := produced s; results := rs |}.
Proof.
  intros [C1 C2 C3 C4 C5 C6 C7] Hg Ht Hh Hpop Hfg Hq Hord.
  assert (Others : forall u g0, u <> t -> nth_error (stages s) u = Some g0 -> holds_pop g = true \/ pop_mutex s = None -> holds_pop g0 = false).
  { intros u g0 N Hu [H|H]; destruct (holds_pop g0) eqn:E; try reflexivity; exfalso.
    - apply (C4 t g Hg) in H. apply (C4 u g0 Hu) in E. congruence.
    - apply (C4 u g0 Hu) in E. congruence. }
  constructor; cbn [handler set_stage set_handler stages pop_mutex foreground background produced consumed results] in *.
  - exact C1.
  - rewrite upd_length. exact C2.
  - intros u g0 q Hu Hq'. revert u g0 Hu q Hq'.
    apply (stage_all (fun u g0 => forall q, nth_error (threads (handler s)) u = Some q -> tie g0 q)).
    + intros u g0 N Hu q Hq'. exact (C3 u g0 q Hu Hq').
    + intros q Hq'. apply Ht. exact (C3 t g q Hg Hq').
  - apply (stage_all (fun u g0 => holds_pop g0 = true <-> pop = Some u)).
    + intros u g0 N Hu. rewrite (Others u g0 N Hu Hh), Hpop. split; [discriminate|]. destruct (holds_pop g'); congruence.
    + rewrite Hpop. destruct (holds_pop g'); split; congruence.
  - intros u Hu. rewrite upd_length. rewrite Hpop in Hu. destruct (holds_pop g'); [|discriminate]. injection Hu as <-. apply nth_error_Some. congruence.
  - apply stage_all; [|exact Hq]. intros u g0 N Hu. destruct Hfg as [Hfg| ->]; [|exact (C6 u g0 Hu)].
    pose proof (Others u g0 N Hu (or_introl Hfg)) as X. destruct g0; try discriminate; exact I.
  - exact Hord.
Qed.

Lemma init_cinv v en n : CInv v en n (cinit v en n).
Proof.
  constructor; cbn.
  - constructor.
  - rewrite !repeat_length. reflexivity.
  - intros t g p Hg Hp. apply Wait_proofs.nth_repeat in Hg as ->. apply Wait_proofs.nth_repeat in Hp as ->. reflexivity.
  - intros t g Hg. apply Wait_proofs.nth_repeat in Hg as ->. split; discriminate.
  - discriminate.
  - intros t g Hg. apply Wait_proofs.nth_repeat in Hg as ->. exact I.
  - reflexivity.
Qed.

Lemma hcall v en n h t o h' : hreach v en n h -> hstep h (Call t o) = Some h' -> counter_client h (Call t o) ->
  hreach v en n h' /\ nth_error (threads h) t = Some Idle /\ threads h' = upd (threads h) t (start (c_above 0) (c_reached 0) o (now h)) /\ value h' = value h.
Proof.
  intros R E C. split; [econstructor; [exact R|exact C|exact E]|]. unfold hstep, c_step in E. cbn [step] in E.
  destruct (nth_error (threads h) t) as [p|]; [|discriminate]. destruct p; try discriminate. injection E as <-. repeat split.
Qed.

Lemma hrun v en n h t pick h' : hreach v en n h -> hstep h (Run t pick) = Some h' ->
  hreach v en n h' /\ exists p p', nth_error (threads h) t = Some p /\ notified N (upd (threads h) t p') (threads h') /\
  nth_error (threads h') t = Some p' /\ moves N (c_above 0) c_incr c_decr h h' t p p'.
Proof.
  intros R E. split; [econstructor; [exact R| |exact E]; exact I|]. unfold hstep, c_step in E. cbn [step] in E.
  destruct (nth_error (threads h) t) as [p|] eqn:Hp; [|discriminate].
  destruct (run_moves _ _ _ _ _ t p pick h h' (reachable_inv _ _ _ _ _ _ _ _ _ _ R) (reachable_counter _ _ _ _ _ _ _ _ _ R) Hp E) as (p' & H1 & H2 & H3).
  exists p, p'. split; [reflexivity|]. split; [exact H1|]. split; [exact H2|exact H3].
Qed.

(** the stage after a step inside the handler *)
Definition next_stage (g : stage T) (p p' : pc N) : stage T :=
  match p' with
  | Idle => match g, p with SWait, WRet _ ConditionMet => SPop | SWait, _ => SIdle | _, _ => SIdle end
  | _ => g
  end.

Lemma upd_same {A} : forall (l : list A) t x, nth_error l t = Some x -> upd l t x = l.
Proof. induction l as [|y l IH]; intros [|t] x H; cbn in *; try discriminate; [congruence|]. rewrite IH by exact H. reflexivity. Qed.

Lemma set_stage_same s t g : nth_error (stages s) t = Some g -> set_stage t g s = s.
Proof. intros H. unfold set_stage. rewrite upd_same by exact H. destruct s; reflexivity. Qed.

Definition in_handler (g : stage T) : bool := match g with SIncrement | SWait | SOther => true | _ => false end.

(** the result of a step inside the handler *)
Lemma run_shape v en n s t pick s' : CInv v en n s -> cstep s (CRun t pick) = Some s' ->
  exists g p p' h r, nth_error (stages s) t = Some g /\ hreach v en n h /\ nth_error (threads (handler s)) t = Some p /\
    notified N (upd (threads (handler s)) t p') (threads h) /\ nth_error (threads h) t = Some p' /\ moves N (c_above 0) c_incr c_decr (handler s) h t p p' /\
    in_handler g = true /\ tie g p /\
    (s' = set_stage t (next_stage g p p') (set_handler h s) \/ s' = report (RThrow t r) (set_stage t (next_stage g p p') (set_handler h s))).
Proof.
  intros C E. cbn [cstep] in E. destruct (nth_error (stages s) t) as [g|] eqn:Hg; [|discriminate].
  destruct (hstep (handler s) (Run t pick)) as [h|] eqn:Eh; [|discriminate].
  destruct (hrun _ _ _ _ _ _ _ (ci_handler _ _ _ _ C) Eh) as (R & p & p' & Hp & Hn & Hp' & M). rewrite Hp' in E.
  pose proof (ci_tie _ _ _ _ C t g p Hg Hp) as Ht.
  assert (Hin : in_handler g = true).
  { destruct g; try reflexivity; cbn in Ht; subst p; unfold hstep, c_step in Eh; cbn [step] in Eh; rewrite Hp in Eh; discriminate. }
  exists g, p, p', h. assert (Hs : nth_error (stages (set_handler h s)) t = Some g) by exact Hg.
  destruct (match p' with Idle => true | _ => false end) eqn:Ei.
  2:{ exists Disabled. repeat (split; [first [assumption|reflexivity]|]). left.
      assert (X : next_stage g p p' = g) by (destruct p'; try reflexivity; discriminate). rewrite X, set_stage_same by exact Hs. destruct p'; try discriminate; congruence. }
  destruct p'; try discriminate. clear Ei. injection E as <-. destruct M as (M1 & M2 & M3 & M4).
  destruct g; try discriminate; cbn [returned next_stage].
  - exists Disabled. repeat (split; [first [assumption|reflexivity]|]). split; [split; [exact M1|split; [exact M2|split; [exact M3|exact M4]]]|]. split; [reflexivity|]. split; [assumption|]. left. reflexivity.
  - destruct Ht as (w & Hw & Htk). destruct (M3 eq_refl) as [X|(w' & r & ->)]; [congruence|]. destruct M4 as (_ & Hv & Hlog). exists r.
    repeat (split; [first [assumption|reflexivity]|]). split; [split; [exact M1|split; [exact M2|split; [exact M3|split; [reflexivity|split; assumption]]]]|]. split; [reflexivity|].
    split; [exists w; split; assumption|]. cbn [log handler set_handler]. rewrite Hlog. destruct r; [right|right|left]; reflexivity.
  - exists Disabled. repeat (split; [first [assumption|reflexivity]|]). split; [split; [exact M1|split; [exact M2|split; [exact M3|exact M4]]]|]. split; [reflexivity|]. split; [assumption|]. left. reflexivity.
Qed.

Lemma next_tie g p p' (h h' : state N) t : in_handler g = true -> tie g p -> moves N (c_above 0) c_incr c_decr h h' t p p' -> tie (next_stage g p p') p'.
Proof.
  intros Hin Ht (M1 & M2 & M3 & M4). destruct (match p' with Idle => true | _ => false end) eqn:Ei.
  - destruct p'; try discriminate. destruct g; try discriminate; cbn; try reflexivity. destruct p; try reflexivity. destruct r; reflexivity.
  - assert (X : next_stage g p p' = g) by (destruct p'; try reflexivity; discriminate). rewrite X.
    assert (Hni : p' <> Idle) by (intros ->; discriminate).
    destruct M1 as [M1|M1]; [|contradiction].
    destruct g; try discriminate; cbn [tie] in *.
    + subst p. destruct M4 as [M4 _]. contradiction.
    + rewrite M1. exact Ht.
    + destruct Ht as (_ & _ & Ht). rewrite M1. split; [exact M2|]. split; [exact Hni|exact Ht].
Qed.

Lemma next_free g p p' : in_handler g = true -> holds_pop (next_stage g p p') = false.
Proof. destruct g; try discriminate; intros _; destruct p'; try reflexivity; destruct p; try reflexivity; destruct r; reflexivity. Qed.

Lemma next_queue fg g p p' : in_handler g = true -> queue_ok fg (next_stage g p p').
Proof. destruct g; try discriminate; intros _; destruct p'; try exact I; destruct p; try exact I; destruct r; exact I. Qed.

Lemma report_cinv v en n s r : CInv v en n s -> (match r with RValue _ _ => False | _ => True end) -> CInv v en n (report r s).
Proof.
  intros [C1 C2 C3 C4 C5 C6 C7] Hr. constructor; try assumption. unfold consumed in *. cbn [results report produced foreground background].
  rewrite values_cons. destruct r; try contradiction; rewrite app_nil_r; exact C7.
Qed.

Ltac clean := cbn [handler set_stage set_handler set_queues set_pop set_produced report stages pop_mutex foreground background produced results].

Lemma cstep_cinv v en n s l s' : CInv v en n s -> cstep s l = Some s' -> CInv v en n s'.
Proof.
  intros C E. destruct l as [t c|t|t pick|t|t|].
  - cbn [cstep] in E. destruct (nth_error (stages s) t) as [g|] eqn:Hg; [|discriminate]. destruct g; try discriminate.
    destruct c as [x|ms|ms| |k]; cbn [begin] in E.
    + injection E as <-. replace (set_stage t (SPush x) s) with
        {| handler := handler s; foreground := foreground s; background := background s; pop_mutex := pop_mutex s;
           stages := upd (stages s) t (SPush x); produced := produced s; results := results s |} by reflexivity.
      destruct C as [C1 C2 C3 C4 C5 C6 C7]. constructor; clean; try assumption.
      * rewrite upd_length. exact C2.
      * intros u g q Hu Hq'. revert u g Hu q Hq'. apply (stage_all (fun u g => forall q, nth_error (threads (handler s)) u = Some q -> tie g q)).
        -- intros u g N Hu q Hq'. exact (C3 u g q Hu Hq').
        -- intros q Hq'. exact (C3 t _ q Hg Hq').
      * apply (stage_all (fun u g => holds_pop g = true <-> pop_mutex s = Some u)); [intros u g N Hu; exact (C4 u g Hu)|]. exact (C4 t _ Hg).
      * intros u Hu. rewrite upd_length. exact (C5 u Hu).
      * apply stage_all; [intros u g N Hu; exact (C6 u g Hu)|exact I].
    + destruct (hstep (handler s) (Call t (WaitAndDecrement ms))) as [h|] eqn:Eh; [|discriminate]. injection E as <-.
      destruct (hcall _ _ _ _ _ _ _ (ci_handler _ _ _ _ C) Eh I) as (R & Hi & Ht & _).
      eapply cinv_handler; [exact C|exact R|exact Hi|rewrite Ht; apply notified_id|rewrite Ht; eapply nth_upd_same; exact Hi| |reflexivity| |exact I].
      * cbn. eexists. split; reflexivity.
      * intros g Hg'. rewrite Hg in Hg'. injection Hg' as <-. reflexivity.
    + destruct (hstep (handler s) (Call t (WaitThreshold ms))) as [h|] eqn:Eh; [|discriminate]. injection E as <-.
      destruct (hcall _ _ _ _ _ _ _ (ci_handler _ _ _ _ C) Eh I) as (R & Hi & Ht & _).
      eapply cinv_handler; [exact C|exact R|exact Hi|rewrite Ht; apply notified_id|rewrite Ht; eapply nth_upd_same; exact Hi| |reflexivity| |exact I].
      * cbn. split; [discriminate|]. split; [discriminate|]. intros w X. injection X as <-. reflexivity.
      * intros g Hg'. rewrite Hg in Hg'. injection Hg' as <-. reflexivity.
    + destruct (hstep (handler s) (Call t GetValue)) as [h|] eqn:Eh; [|discriminate]. injection E as <-.
      destruct (hcall _ _ _ _ _ _ _ (ci_handler _ _ _ _ C) Eh I) as (R & Hi & Ht & _).
      eapply cinv_handler; [exact C|exact R|exact Hi|rewrite Ht; apply notified_id|rewrite Ht; eapply nth_upd_same; exact Hi| |reflexivity| |exact I].
      * cbn. split; [discriminate|]. split; discriminate.
      * intros g Hg'. rewrite Hg in Hg'. injection Hg' as <-. reflexivity.
    + destruct (hstep (handler s) (Call t (Control k))) as [h|] eqn:Eh; [|discriminate]. injection E as <-.
      destruct (hcall _ _ _ _ _ _ _ (ci_handler _ _ _ _ C) Eh I) as (R & Hi & Ht & _).
      eapply cinv_handler; [exact C|exact R|exact Hi|rewrite Ht; apply notified_id|rewrite Ht; eapply nth_upd_same; exact Hi| |reflexivity| |exact I].
      * cbn. split; [discriminate|]. split; discriminate.
      * intros g Hg'. rewrite Hg in Hg'. injection Hg' as <-. reflexivity.
  - cbn [cstep] in E. destruct (nth_error (stages s) t) as [g|] eqn:Hg; [|discriminate].
    pose proof (ci_order _ _ _ _ C) as Hord. unfold consumed in Hord. pose proof (ci_queue _ _ _ _ C t g Hg) as Hq. pose proof (ci_pop _ _ _ _ C t g Hg) as Hpop.
    destruct g; cbn [queue_step] in E; try discriminate; cbn [queue_ok] in Hq.
    + destruct (hstep (handler s) (Call t Increment)) as [h|] eqn:Eh; [|discriminate]. injection E as <-.
      destruct (hcall _ _ _ _ _ _ _ (ci_handler _ _ _ _ C) Eh I) as (R & Hi & Ht & _).
      assert (C' : CInv v en n (set_stage t SIncrement (set_handler h s))).
      { eapply cinv_handler; [exact C|exact R|exact Hi|rewrite Ht; apply notified_id|rewrite Ht; eapply nth_upd_same; exact Hi| |reflexivity| |exact I].
        - reflexivity.
        - intros g Hg'. rewrite Hg in Hg'. injection Hg' as <-. reflexivity. }
      destruct C' as [C1 C2 C3 C4 C5 C6 C7]. constructor; unfold consumed in *; clean; try assumption.
      rewrite Hord, <- !app_assoc. reflexivity.
    + destruct (free (pop_mutex s)) eqn:F; [|discriminate]. apply free_none in F. injection E as <-.
      unfold set_stage, set_pop. clean. eapply cinv_queue; [exact C|exact Hg|trivial|right; exact F|reflexivity|right; reflexivity|exact I|exact Hord].
    + injection E as <-. assert (pop_mutex s = Some t) as Ho by (apply Hpop; reflexivity).
      unfold set_stage. eapply cinv_queue; [exact C|exact Hg|destruct (foreground s); trivial|left; reflexivity|rewrite Ho; destruct (foreground s); reflexivity|right; reflexivity| |exact Hord].
      destruct (foreground s); [reflexivity|exact I].
    + injection E as <-. assert (pop_mutex s = Some t) as Ho by (apply Hpop; reflexivity).
      unfold set_stage, set_queues. clean. eapply cinv_queue; [exact C|exact Hg|trivial|left; reflexivity|rewrite Ho; reflexivity|left; reflexivity|exact I|].
      rewrite Hord, Hq, app_nil_r. reflexivity.
    + assert (pop_mutex s = Some t) as Ho by (apply Hpop; reflexivity).
      destruct (foreground s) as [|x fg] eqn:Ef; injection E as <-.
      * unfold report, set_stage, set_pop. clean. rewrite Ef. eapply cinv_queue; [exact C|exact Hg|trivial|left; reflexivity|reflexivity|right; symmetry; exact Ef|exact I|].
        rewrite values_cons, app_nil_r. exact Hord.
      * unfold set_stage. clean. rewrite Ef. eapply cinv_queue; [exact C|exact Hg|trivial|left; reflexivity|rewrite Ho; reflexivity|right; symmetry; exact Ef|discriminate|exact Hord].
    + assert (pop_mutex s = Some t) as Ho by (apply Hpop; reflexivity).
      destruct (foreground s) as [|x fg] eqn:Ef; [contradiction|]; injection E as <-.
      unfold set_stage. clean. rewrite Ef. eapply cinv_queue; [exact C|exact Hg|trivial|left; reflexivity|rewrite Ho; reflexivity|right; symmetry; exact Ef|exists fg; reflexivity|exact Hord].
    + assert (pop_mutex s = Some t) as Ho by (apply Hpop; reflexivity). destruct Hq as (fg & Ef). rewrite Ef in E. injection E as <-.
      unfold report, set_stage, set_pop, set_queues. clean. eapply cinv_queue; [exact C|exact Hg|trivial|left; reflexivity|reflexivity|left; reflexivity|exact I|].
      rewrite values_cons, Hord, Ef, <- !app_assoc. reflexivity.
  - destruct (run_shape _ _ _ _ _ _ _ C E) as (g & p & p' & h & r & Hg & R & Hp & Hn & Hp' & M & Hin & Ht & Hs').
    assert (C' : CInv v en n (set_stage t (next_stage g p p') (set_handler h s))).
    { eapply cinv_handler; [exact C|exact R|exact Hp|exact Hn|exact Hp'|eapply next_tie; eassumption|apply next_free; exact Hin| |apply next_queue; exact Hin].
      intros g0 Hg0. rewrite Hg in Hg0. injection Hg0 as <-. destruct g; try discriminate; reflexivity. }
    destruct Hs' as [->| ->]; [exact C'|apply report_cinv; [exact C'|exact I]].
  - cbn [cstep] in E. destruct (hstep (handler s) (Spurious t)) as [h|] eqn:Eh; [|discriminate]. injection E as <-.
    assert (R : hreach v en n h) by (econstructor; [exact (ci_handler _ _ _ _ C)| |exact Eh]; exact I).
    unfold hstep, c_step in Eh. cbn [step] in Eh. destruct (nth_error (threads (handler s)) t) as [p|] eqn:Hp; [|discriminate]. destruct p; try discriminate. injection Eh as Eh.
    assert (Hl : t < length (stages s)) by (rewrite (ci_length _ _ _ _ C); apply nth_error_Some; congruence). apply nth_error_Some in Hl.
    destruct (nth_error (stages s) t) as [g|] eqn:Hg; [|contradiction]. pose proof (ci_tie _ _ _ _ C t g _ Hg Hp) as Ht.
    rewrite <- (set_stage_same (set_handler h s) t g Hg).
    eapply cinv_handler; [exact C|exact R|exact Hp|rewrite <- Eh; apply notified_id|rewrite <- Eh; eapply nth_upd_same; exact Hp| | | |exact (ci_queue _ _ _ _ C t g Hg)].
    + destruct g; cbn [tie wait_of] in *; try discriminate; [exact Ht|]. destruct Ht as (_ & _ & Ht). split; [discriminate|]. split; [discriminate|exact Ht].
    + destruct g; try discriminate; reflexivity.
    + intros g0 Hg0. rewrite Hg in Hg0. injection Hg0 as <-. destruct g; try discriminate; reflexivity.
  - cbn [cstep] in E. destruct (hstep (handler s) (Expire t)) as [h|] eqn:Eh; [|discriminate]. injection E as <-.
    assert (R : hreach v en n h) by (econstructor; [exact (ci_handler _ _ _ _ C)| |exact Eh]; exact I).
    unfold hstep, c_step in Eh. cbn [step] in Eh. destruct (nth_error (threads (handler s)) t) as [p|] eqn:Hp; [|discriminate]. destruct p; try discriminate.
    destruct dl as [d|]; [|discriminate]. destruct (d <=? now (handler s)); [|discriminate]. injection Eh as Eh.
    assert (Hl : t < length (stages s)) by (rewrite (ci_length _ _ _ _ C); apply nth_error_Some; congruence). apply nth_error_Some in Hl.
    destruct (nth_error (stages s) t) as [g|] eqn:Hg; [|contradiction]. pose proof (ci_tie _ _ _ _ C t g _ Hg Hp) as Ht.
    rewrite <- (set_stage_same (set_handler h s) t g Hg).
    eapply cinv_handler; [exact C|exact R|exact Hp|rewrite <- Eh; apply notified_id|rewrite <- Eh; eapply nth_upd_same; exact Hp| | | |exact (ci_queue _ _ _ _ C t g Hg)].
    + destruct g; cbn [tie wait_of] in *; try discriminate; [exact Ht|]. destruct Ht as (_ & _ & Ht). split; [discriminate|]. split; [discriminate|exact Ht].
    + destruct g; try discriminate; reflexivity.
    + intros g0 Hg0. rewrite Hg in Hg0. injection Hg0 as <-. destruct g; try discriminate; reflexivity.
  - cbn [cstep] in E. destruct (hstep (handler s) Tick) as [h|] eqn:Eh; [|discriminate]. injection E as <-.
    assert (R : hreach v en n h) by (econstructor; [exact (ci_handler _ _ _ _ C)| |exact Eh]; exact I).
    apply cinv_tick; [exact C|exact R|]. unfold hstep, c_step in Eh. cbn [step] in Eh. injection Eh as <-. reflexivity.
Qed.

Lemma creachable_cinv v en n s : creachable (cinit v en n) s -> CInv v en n s.
Proof. intros R. induction R as [|s l s' R IH E]; [apply init_cinv|eapply cstep_cinv; eassumption]. Qed.

Lemma order_lemma : forall v en n s, creachable (cinit v en n) s ->
  produced s = consumed s ++ foreground s ++ background s.
Proof. intros v en n s R. exact (ci_order _ _ _ _ (creachable_cinv _ _ _ _ R)). Qed.

(** ** The balance between the counter and the queue *)
Definition granted (p : pc N) : bool := match p with WRet w ConditionMet => w_take w | _ => false end.
Definition incrementing (p : pc N) : bool := match p with ILock => true | _ => false end.
Definition popping (g : stage T) : bool := match g with SPop | SEmpty | SSwap | SEmpty2 | SFront | SDrop _ => true | _ => false end.

Definition debt s : nat := count granted (threads (handler s)) + count incrementing (threads (handler s)) + count popping (stages s).

Definition harmless (r : result T) : Prop := match r with RInconsistent _ | RUndefined _ => False | _ => True end.

(** [k] is how many times the counter went past 2^32 - 1 *)
Record Bal (k : N) s : Prop := {
  ba_sum : N.of_nat (in_queue s) = (value (handler s) + N.of_nat (debt s) + k * 2 ^ 32)%N;
  ba_swap : forall t, nth_error (stages s) t = Some SEmpty2 -> foreground s <> [];
  ba_results : forall r, In r (results s) -> harmless r }.

Lemma woken_granted p q : woken N p q -> granted q = granted p.
Proof. intros [->|(c & H & ->)]; [reflexivity|]. destruct p; try discriminate. cbn in *. rewrite H. reflexivity. Qed.
Lemma woken_incrementing p q : woken N p q -> incrementing q = incrementing p.
Proof. intros [->|(c & H & ->)]; [reflexivity|]. destruct p; try discriminate. cbn in *. rewrite H. reflexivity. Qed.

Lemma debt_handler s h t p p' g g' : nth_error (threads (handler s)) t = Some p -> notified N (upd (threads (handler s)) t p') (threads h) ->
  nth_error (stages s) t = Some g ->
  debt (set_stage t g' (set_handler h s)) + b2n (granted p) + b2n (incrementing p) + b2n (popping g) =
  debt s + b2n (granted p') + b2n (incrementing p') + b2n (popping g').
Proof.
  intros Hp Hn Hg. unfold debt. cbn [handler set_stage set_handler stages].
  rewrite (notified_count _ _ _ Hn woken_granted), (notified_count _ _ _ Hn woken_incrementing).
  pose proof (count_upd granted (threads (handler s)) t p' p Hp). pose proof (count_upd incrementing (threads (handler s)) t p' p Hp).
  pose proof (count_upd popping (stages s) t g' g Hg). lia.
Qed.

Lemma debt_stage s t g g' : nth_error (stages s) t = Some g ->
  debt (set_stage t g' s) + b2n (popping g) = debt s + b2n (popping g').
Proof. intros Hg. unfold debt. cbn [handler set_stage stages]. pose proof (count_upd popping (stages s) t g' g Hg). lia. Qed.

Lemma upd_swap l t (g' : stage T) fg u : (forall u, nth_error l u = Some SEmpty2 -> fg <> @nil T) -> (g' = SEmpty2 -> fg <> []) ->
  nth_error (upd l t g') u = Some SEmpty2 -> fg <> [].
Proof.
  intros H H' Hu. destruct (Nat.eq_dec t u) as [<-|N].
  - destruct (nth_error l t) as [y|] eqn:Hy; [rewrite (nth_upd_same _ _ _ y Hy) in Hu; injection Hu as Hu; exact (H' Hu)|].
    exfalso. apply nth_error_None in Hy. assert (t < length (upd l t g')) by (apply nth_error_Some; congruence). rewrite upd_length in *. lia.
  - rewrite nth_upd_other in Hu by exact N. exact (H u Hu).
Qed.

Lemma incr_small v : (v + 1 < 2 ^ 32)%N -> c_incr v = (v + 1)%N.
Proof. intros H. unfold c_incr. apply N.mod_small. exact H. Qed.
Lemma decr_small v : (v < 2 ^ 32)%N -> c_above 0 v = true -> c_decr v = (v - 1)%N.
Proof.
  intros H H'. unfold c_decr, c_above in *. apply N.ltb_lt in H'. replace (v + 2 ^ 32 - 1)%N with (v - 1 + 1 * 2 ^ 32)%N by lia.
  rewrite N.mod_add by discriminate. apply N.mod_small. lia.
Qed.

Lemma debt_pos s t g : nth_error (stages s) t = Some g -> popping g = true -> 0 < debt s.
Proof.
  intros Hg H. unfold debt. assert (0 < count popping (stages s)); [|lia]. unfold count.
  assert (In g (filter popping (stages s))) by (apply filter_In; split; [eapply nth_error_In; exact Hg|exact H]).
  destruct (filter popping (stages s)); [contradiction|cbn; lia].
Qed.

Lemma cstep_small v en n s l s' : CInv v en n s -> (value (handler s) < 2 ^ 32)%N -> cstep s l = Some s' -> (value (handler s') < 2 ^ 32)%N.
Proof.
  intros C Q E.
  assert (Call : forall t o h, counter_client (handler s) (Call t o) -> hstep (handler s) (Call t o) = Some h -> (value h < 2 ^ 32)%N).
  { intros t o h Hc Eh. destruct (hcall _ _ _ _ _ _ _ (ci_handler _ _ _ _ C) Eh Hc) as (_ & _ & _ & Hv). rewrite Hv. exact Q. }
  destruct l as [t c|t|t pick|t|t|].
  - cbn [cstep] in E. destruct (nth_error (stages s) t) as [g|]; [|discriminate]. destruct g; try discriminate.
    destruct c as [x|ms|ms| |ctl]; cbn [begin] in E; [injection E as <-; exact Q| | | |];
      match type of E with match hstep ?a ?b with _ => _ end = _ => destruct (hstep a b) as [h|] eqn:Eh; [|discriminate]; injection E as <-; apply (Call _ _ h) in Eh; [exact Eh|exact I] end.
  - cbn [cstep] in E. destruct (nth_error (stages s) t) as [g|]; [|discriminate]. destruct g; cbn [queue_step] in E; try discriminate.
    + destruct (hstep (handler s) (Wait_model.Call t Increment)) as [h|] eqn:Eh; [|discriminate]. injection E as <-. exact (Call t Increment h I Eh).
    + destruct (free (pop_mutex s)); [|discriminate]. injection E as <-. exact Q.
    + injection E as <-. destruct (foreground s); exact Q.
    + injection E as <-. exact Q.
    + destruct (foreground s); injection E as <-; exact Q.
    + destruct (foreground s); injection E as <-; exact Q.
    + destruct (foreground s); injection E as <-; exact Q.
  - destruct (run_shape _ _ _ _ _ _ _ C E) as (g & p & p' & h & r & Hg & R & Hp & Hn & Hp' & M & Hin & Ht & Hs').
    assert (Hv : (value h < 2 ^ 32)%N).
    { destruct M as (_ & _ & _ & M4). destruct p; try (destruct M4 as (M4 & _); rewrite M4; exact Q).
      - destruct M4 as [(_ & _ & _ & Hv)|(Hv & _)]; rewrite Hv; [unfold c_decr; apply N.mod_lt; discriminate|exact Q].
      - destruct M4 as (_ & Hv & _). rewrite Hv. exact Q.
      - destruct M4 as (_ & Hv). rewrite Hv. unfold c_incr. apply N.mod_lt. discriminate. }
    destruct Hs' as [->| ->]; exact Hv.
  - cbn [cstep] in E. destruct (hstep (handler s) (Spurious t)) as [h|] eqn:Eh; [|discriminate]. injection E as <-.
    unfold hstep, c_step in Eh. cbn [step] in Eh. destruct (nth_error (threads (handler s)) t) as [p|] eqn:Hp; [|discriminate]. destruct p; try discriminate. injection Eh as <-. exact Q.
  - cbn [cstep] in E. destruct (hstep (handler s) (Expire t)) as [h|] eqn:Eh; [|discriminate]. injection E as <-.
    unfold hstep, c_step in Eh. cbn [step] in Eh. destruct (nth_error (threads (handler s)) t) as [p|] eqn:Hp; [|discriminate]. destruct p; try discriminate.
    destruct dl as [d|]; [|discriminate]. destruct (d <=? now (handler s)); [|discriminate]. injection Eh as <-. exact Q.
  - cbn [cstep] in E. destruct (hstep (handler s) Tick) as [h|] eqn:Eh; [|discriminate]. injection E as <-.
    unfold hstep, c_step in Eh. cbn [step] in Eh. injection Eh as <-. exact Q.
Qed.

Lemma cstep_bal v en n k s l s' : CInv v en n s -> Bal k s -> (value (handler s) < 2 ^ 32)%N -> cstep s l = Some s' -> exists k', Bal k' s'.
Proof.
  intros C B Q E. pose proof B as [B1 B2 B3]. destruct l as [t c|t|t pick|t|t|].
  - cbn [cstep] in E. destruct (nth_error (stages s) t) as [g|] eqn:Hg; [|discriminate]. destruct g; try discriminate.
    assert (G : forall o h g', counter_client (handler s) (Call t o) -> hstep (handler s) (Call t o) = Some h -> popping g' = false -> g' <> SEmpty2 ->
      granted (start (c_above 0) (c_reached 0) o (now (handler s))) = false -> incrementing (start (c_above 0) (c_reached 0) o (now (handler s))) = false ->
      exists k', Bal k' (set_stage t g' (set_handler h s))).
    { intros o h g' Hc Eh H1 H2 H3 H4. destruct (hcall _ _ _ _ _ _ _ (ci_handler _ _ _ _ C) Eh Hc) as (R & Hi & Ht & Hv).
      assert (Hn : notified N (upd (threads (handler s)) t (start (c_above 0) (c_reached 0) o (now (handler s)))) (threads h)) by (rewrite Ht; apply notified_id).
      pose proof (debt_handler s h t _ _ _ g' Hi Hn Hg) as D.
      rewrite H1, H3, H4 in D. cbn in D. exists k. constructor.
      - change (in_queue (set_stage t g' (set_handler h s))) with (in_queue s). cbn [handler set_stage set_handler value]. rewrite Hv, B1. f_equal. lia.
      - intros u. apply upd_swap; [exact B2|intros X; contradiction].
      - exact B3. }
    destruct c as [x|ms|ms| |ctl]; cbn [begin] in E.
    + injection E as <-. pose proof (debt_stage s t _ (SPush x) Hg) as D. cbn in D. exists k. constructor.
      * change (in_queue (set_stage t (SPush x) s)) with (in_queue s). cbn [handler set_stage]. rewrite B1. f_equal. lia.
      * intros u. apply upd_swap; [exact B2|discriminate].
      * exact B3.
    + destruct (hstep (handler s) (Call t (WaitAndDecrement ms))) as [h|] eqn:Eh; [|discriminate]. injection E as <-. eapply G; try exact Eh; try reflexivity; discriminate.
    + destruct (hstep (handler s) (Call t (WaitThreshold ms))) as [h|] eqn:Eh; [|discriminate]. injection E as <-. eapply G; try exact Eh; try reflexivity; discriminate.
    + destruct (hstep (handler s) (Call t GetValue)) as [h|] eqn:Eh; [|discriminate]. injection E as <-. eapply G; try exact Eh; try reflexivity; discriminate.
    + destruct (hstep (handler s) (Call t (Control ctl))) as [h|] eqn:Eh; [|discriminate]. injection E as <-. eapply G; try exact Eh; try reflexivity; discriminate.
  - cbn [cstep] in E. destruct (nth_error (stages s) t) as [g|] eqn:Hg; [|discriminate].
    pose proof (ci_queue _ _ _ _ C t g Hg) as Hq. pose proof (ci_pop _ _ _ _ C t g Hg) as Hpop.
    assert (Others : forall u, u <> t -> holds_pop g = true -> nth_error (stages s) u <> Some SEmpty2).
    { intros u N H Hu. apply Hpop in H. pose proof (proj1 (ci_pop _ _ _ _ C u _ Hu) eq_refl). congruence. }
    unfold in_queue in *.
    destruct g; cbn [queue_step] in E; try discriminate; cbn [queue_ok] in Hq.
    + destruct (hstep (handler s) (Call t Increment)) as [h|] eqn:Eh; [|discriminate]. injection E as <-.
      destruct (hcall _ _ _ _ _ _ _ (ci_handler _ _ _ _ C) Eh I) as (R & Hi & Ht & Hv).
      assert (Hn : notified N (upd (threads (handler s)) t ILock) (threads h)) by (rewrite Ht; apply notified_id).
      pose proof (debt_handler s h t _ _ _ SIncrement Hi Hn Hg) as D. cbn [granted incrementing popping b2n] in D.
      exists k; constructor; clean.
      * unfold debt in *. clean. cbn [handler set_stage set_handler stages] in D. unfold in_queue. clean. rewrite Hv, app_length. cbn [length]. lia.
      * intros u. apply upd_swap; [exact B2|discriminate].
      * exact B3.
    + destruct (free (pop_mutex s)) eqn:F; [|discriminate]. injection E as <-. pose proof (debt_stage s t _ SEmpty Hg) as D. cbn [popping b2n] in D. exists k; constructor; clean.
      * unfold in_queue, debt in *. clean. cbn [handler set_stage stages] in D. lia.
      * intros u. apply upd_swap; [exact B2|discriminate].
      * exact B3.
    + injection E as <-. destruct (foreground s) as [|x fg] eqn:Ef.
      * pose proof (debt_stage s t _ SSwap Hg) as D. cbn [popping b2n] in D. exists k; constructor; clean.
        -- unfold in_queue, debt in *. clean. cbn [handler set_stage stages] in D. rewrite Ef. lia.
        -- intros u. rewrite Ef. apply upd_swap; [exact B2|discriminate].
        -- exact B3.
      * pose proof (debt_stage s t _ SEmpty2 Hg) as D. cbn [popping b2n] in D. exists k; constructor; clean.
        -- unfold in_queue, debt in *. clean. cbn [handler set_stage stages] in D. rewrite Ef. lia.
        -- intros u. rewrite Ef. intros _. discriminate.
        -- exact B3.
    + injection E as <-. pose proof (debt_stage s t _ SEmpty2 Hg) as D. cbn [popping b2n] in D. pose proof (debt_pos s t _ Hg eq_refl) as DP. rewrite Hq in *. cbn [length] in *.
      exists k; constructor; clean.
      * unfold in_queue, debt in *. clean. cbn [handler set_stage stages] in D. cbn [length]. lia.
      * intros u Hu Z. rewrite Z in B1. cbn [length] in B1. lia.
      * exact B3.
    + pose proof (B2 t Hg) as Hne. destruct (foreground s) as [|x fg] eqn:Ef; [contradiction|]. injection E as <-.
      pose proof (debt_stage s t _ SFront Hg) as D. cbn [popping b2n] in D. exists k; constructor; clean.
      * unfold in_queue, debt in *. clean. cbn [handler set_stage stages] in D. rewrite Ef. lia.
      * intros u. rewrite Ef. intros _. discriminate.
      * exact B3.
    + destruct (foreground s) as [|x fg] eqn:Ef; [contradiction|]. injection E as <-.
      pose proof (debt_stage s t _ (SDrop x) Hg) as D. cbn [popping b2n] in D. exists k; constructor; clean.
      * unfold in_queue, debt in *. clean. cbn [handler set_stage stages] in D. rewrite Ef. lia.
      * intros u. rewrite Ef. intros _. discriminate.
      * exact B3.
    + destruct Hq as (fg & Ef). rewrite Ef in *. injection E as <-.
      pose proof (debt_stage s t _ SIdle Hg) as D. cbn [popping b2n] in D. exists k; constructor; clean.
      * unfold in_queue, debt in *. clean. cbn [handler set_stage stages] in D. cbn [length] in B1. lia.
      * intros u Hu. exfalso. destruct (Nat.eq_dec t u) as [<-|N].
        -- rewrite (nth_upd_same _ _ _ _ Hg) in Hu. discriminate.
        -- rewrite nth_upd_other in Hu by exact N. exact (Others u (fun X => N (eq_sym X)) eq_refl Hu).
      * intros r [<-|Hr]; [exact I|exact (B3 r Hr)].
  - destruct (run_shape _ _ _ _ _ _ _ C E) as (g & p & p' & h & r & Hg & R & Hp & Hn & Hp' & M & Hin & Ht & Hs').
    pose proof (debt_handler s h t p p' g (next_stage g p p') Hp Hn Hg) as D.
    assert (SUM : exists k', N.of_nat (in_queue s) = (value h + N.of_nat (debt (set_stage t (next_stage g p p') (set_handler h s))) + k' * 2 ^ 32)%N).
    { assert (Hpg : popping g = false) by (destruct g; try discriminate; reflexivity). rewrite Hpg in D. destruct M as (M1 & M2 & M3 & M4).
      assert (Hi' : incrementing p' = false) by (destruct p'; try reflexivity; contradiction). rewrite Hi' in D.
      assert (Same : forall (X : value h = value (handler s)) (Y : b2n (granted p) + b2n (incrementing p) = b2n (granted p') + b2n (popping (next_stage g p p'))),
        exists k', N.of_nat (in_queue s) = (value h + N.of_nat (debt (set_stage t (next_stage g p p') (set_handler h s))) + k' * 2 ^ 32)%N).
      { intros X Y. exists k. rewrite X, B1. f_equal. cbn [b2n] in D. lia. }
      assert (Keep : forall w, p' = WRet w ConditionMet \/ (exists w r, p' = WRet w r) -> w = w -> popping (next_stage g p p') = false).
      { intros w [->|(w0 & r0 & ->)] _; cbn; exact Hpg. }
      assert (Gen : value h = value (handler s) -> granted p = false -> incrementing p = false -> (forall w, p' <> WRet w ConditionMet) ->
        (p' = Idle -> wait_of N p = None) -> exists k', N.of_nat (in_queue s) = (value h + N.of_nat (debt (set_stage t (next_stage g p p') (set_handler h s))) + k' * 2 ^ 32)%N).
      { intros X G1 G2 G3 G4. apply Same; [exact X|]. rewrite G1, G2.
        assert (granted p' = false) as -> by (destruct p'; try reflexivity; destruct r0; try reflexivity; exfalso; exact (G3 _ eq_refl)).
        cbn [b2n]. assert (popping (next_stage g p p') = false) as ->; [|reflexivity].
        destruct p'; try exact Hpg. specialize (G4 eq_refl). destruct g; try discriminate; try reflexivity. destruct p; try reflexivity. discriminate. }
      destruct p; try (apply Gen; [apply M4|reflexivity|reflexivity|apply M4|intros Z; destruct (M3 Z) as [Z'|(w0 & r0 & Z')]; [exact Z'|discriminate]]).
      - destruct M4 as [(-> & Htk & Ha & Hv)|(Hv & r0 & -> & Hr0)].
        + exists k. rewrite Hv, decr_small; [|lia|exact Ha]. unfold c_above in Ha. apply N.ltb_lt in Ha. cbn [next_stage] in *. cbn [granted] in D. rewrite Htk, Hpg in D. cbn [incrementing b2n] in D. lia.
        + apply Same; [exact Hv|]. cbn [next_stage]. rewrite Hpg. cbn [granted incrementing b2n]. destruct r0; try reflexivity. rewrite (Hr0 eq_refl). reflexivity.
      - destruct M4 as (-> & Hv & _). apply Same; [exact Hv|]. destruct g; try discriminate; cbn [tie wait_of] in Ht.
        + destruct Ht as (w0 & Hw0 & Htk). injection Hw0 as ->. destruct r0; cbn; rewrite ?Htk; reflexivity.
        + destruct Ht as (_ & _ & Htk). specialize (Htk w eq_refl). destruct r0; cbn; rewrite ?Htk; reflexivity.
      - destruct M4 as (-> & Hv). rewrite Hv. destruct g; try discriminate; cbn [tie wait_of] in Ht.
        + cbn in D. destruct (N.lt_ge_cases (value (handler s) + 1) (2 ^ 32)) as [L|L]; [exists k; rewrite incr_small by assumption; cbn; lia|].
          exists (k + 1)%N. assert (W : value (handler s) = (2 ^ 32 - 1)%N) by lia. rewrite W. change (c_incr (2 ^ 32 - 1)) with 0%N. cbn. lia.
        + destruct Ht as (w0 & X & _). discriminate.
        + destruct Ht as (X & _). contradiction. }
    destruct SUM as (k' & SUM). exists k'.
    assert (B' : Bal k' (set_stage t (next_stage g p p') (set_handler h s))).
    { constructor; [exact SUM|intros u; apply upd_swap; [exact B2|]; destruct g; try discriminate; destruct p'; try discriminate; destruct p; try discriminate; destruct r0; discriminate|exact B3]. }
    destruct Hs' as [->| ->]; [exact B'|]. destruct B' as [A1 A2 A3]. constructor; [exact A1|exact A2|]. intros r' [<-|Hr']; [exact I|exact (A3 r' Hr')].
  - cbn [cstep] in E. destruct (hstep (handler s) (Spurious t)) as [h|] eqn:Eh; [|discriminate]. injection E as <-.
    unfold hstep, c_step in Eh. cbn [step] in Eh. destruct (nth_error (threads (handler s)) t) as [p|] eqn:Hp; [|discriminate]. destruct p; try discriminate. injection Eh as <-.
    exists k; constructor; clean; try assumption. unfold debt, in_queue in *. clean. cbn [threads set_pc value].
    pose proof (count_upd granted (threads (handler s)) t (WWoken w dl false) _ Hp). pose proof (count_upd incrementing (threads (handler s)) t (WWoken w dl false) _ Hp).
    cbn [granted incrementing b2n] in *. lia.
  - cbn [cstep] in E. destruct (hstep (handler s) (Expire t)) as [h|] eqn:Eh; [|discriminate]. injection E as <-.
    unfold hstep, c_step in Eh. cbn [step] in Eh. destruct (nth_error (threads (handler s)) t) as [p|] eqn:Hp; [|discriminate]. destruct p; try discriminate.
    destruct dl as [d|]; [|discriminate]. destruct (d <=? now (handler s)); [|discriminate]. injection Eh as <-.
    exists k; constructor; clean; try assumption. unfold debt, in_queue in *. clean. cbn [threads set_pc value].
    pose proof (count_upd granted (threads (handler s)) t (WWoken w (Some d) true) _ Hp). pose proof (count_upd incrementing (threads (handler s)) t (WWoken w (Some d) true) _ Hp).
    cbn [granted incrementing b2n] in *. lia.
  - cbn [cstep] in E. destruct (hstep (handler s) Tick) as [h|] eqn:Eh; [|discriminate]. injection E as <-.
    unfold hstep, c_step in Eh. cbn [step] in Eh. injection Eh as <-. exists k; constructor; clean; try assumption.
Qed.

Lemma init_bal en n : Bal 0 (cinit 0%N en n).
Proof.
  constructor; cbn [handler foreground background stages results cinit init].
  - unfold debt, in_queue. cbn [handler foreground background stages results cinit init threads]. rewrite !count_repeat by reflexivity. reflexivity.
  - intros t Ht. apply Wait_proofs.nth_repeat in Ht. discriminate.
  - contradiction.
Qed.

Lemma reach_bal en n s : creachable (cinit 0%N en n) s -> CInv 0%N en n s /\ (value (handler s) < 2 ^ 32)%N /\ exists k, Bal k s.
Proof.
  intros R. induction R as [|s l s' R (C & Q & k & B) E].
  - split; [apply init_cinv|]. split; [reflexivity|]. exists 0%N. apply init_bal.
  - split; [eapply cstep_cinv; eassumption|]. split; [eapply cstep_small; eassumption|eapply cstep_bal; eassumption].
Qed.

Lemma bounded_reach en n s : bounded (cinit 0%N en n) s -> creachable (cinit 0%N en n) s.
Proof. intro R. induction R; [constructor|econstructor; eassumption]. Qed.
Lemma bounded_bal en n s : bounded (cinit 0%N en n) s -> CInv 0%N en n s /\ Bal 0 s /\ (N.of_nat (in_queue s) < 2 ^ 32)%N.
Proof.
  intro R. destruct (reach_bal _ _ _ (bounded_reach _ _ _ R)) as (C & Q & k & B).
  assert (L : (N.of_nat (in_queue s) < 2 ^ 32)%N) by (destruct R; [reflexivity|assumption]).
  split; [exact C|]. split; [|exact L]. assert (k = 0%N) by (pose proof (ba_sum _ _ B); lia). subst k. exact B.
Qed.

Lemma never_empty_lemma : forall en n s, creachable (cinit 0%N en n) s ->
  forall r, In r (results s) -> match r with RInconsistent _ | RUndefined _ => False | _ => True end.
Proof. intros en n s R r Hr. destruct (reach_bal _ _ _ R) as (_ & _ & k & B). exact (ba_results _ _ B r Hr). Qed.

Lemma quiet_lemma : forall en n s, creachable (cinit 0%N en n) s -> quiet s ->
  value (handler s) = (N.of_nat (length (produced s) - length (consumed s)) mod 2 ^ 32)%N.
Proof.
  intros en n s R Qt. destruct (reach_bal _ _ _ R) as (C & Q & k & B). rewrite (ci_order _ _ _ _ C), !app_length.
  pose proof (ba_sum _ _ B) as S. unfold in_queue in S.
  assert (D : debt s = 0).
  { assert (Hidle : forall t p, nth_error (threads (handler s)) t = Some p -> p = Idle).
    { intros t p Hp. assert (Hl : t < length (stages s)) by (rewrite (ci_length _ _ _ _ C); apply nth_error_Some; congruence). apply nth_error_Some in Hl.
      destruct (nth_error (stages s) t) as [g|] eqn:Hg; [|contradiction]. pose proof (ci_tie _ _ _ _ C t g p Hg Hp) as Ht. rewrite (Qt t g Hg) in Ht. exact Ht. }
    unfold debt. rewrite (proj2 (count_zero granted _)), (proj2 (count_zero incrementing _)), (proj2 (count_zero popping _)); [reflexivity| | |].
    - intros t g Hg. rewrite (Qt t g Hg). reflexivity.
    - intros t p Hp. rewrite (Hidle t p Hp). reflexivity.
    - intros t p Hp. rewrite (Hidle t p Hp). reflexivity. }
  rewrite D in S. match goal with |- _ = (N.of_nat ?x mod _)%N => replace (N.of_nat x) with (value (handler s) + k * 2 ^ 32)%N by lia end.
  rewrite N.mod_add by discriminate. symmetry. apply N.mod_small. exact Q.
Qed.
End Proofs.

(** a handler created with a positive value and nothing in the queue *)
Lemma inconsistent_lemma : forall T : Type, exists ls (s : cstate T), csteps (cinit 1%N true 1) ls = Some s /\ In (RInconsistent 0) (results s).
Proof.
  intros T. exists [CCall 0 (Consume 0); CRun 0 0; CRun 0 0; CRun 0 0; CRun 0 0; CRun 0 0; CRun 0 0; CQueue 0; CQueue 0; CQueue 0; CQueue 0].
  eexists. split; [vm_compute; reflexivity|]. left. reflexivity.
Qed.

(** 2^32 elements are produced *)
Lemma produce_one (T : Type) (x : T) (h : state N) fg bg pr rs : threads h = [Idle] -> mutex h = None -> status h = None -> waiting h = 0 ->
  exists h', csteps {| handler := h; foreground := fg; background := bg; pop_mutex := None; stages := [SIdle]; produced := pr; results := rs |} [CCall 0 (Produce x); CQueue 0; CRun 0 1] =
    Some {| handler := h'; foreground := fg; background := bg ++ [x]; pop_mutex := None; stages := [SIdle]; produced := pr ++ [x]; results := rs |} /\
  threads h' = [Idle] /\ mutex h' = None /\ status h' = None /\ waiting h' = 0 /\ value h' = c_incr (value h).
Proof.
  destruct h as [v e w m st th nw lg]. cbn [threads mutex status waiting value]. intros -> -> -> ->.
  exists {| value := c_incr v; enabled := e; waiting := 0; mutex := None; status := None; threads := [Idle]; now := nw; log := lg |}.
  split; [|repeat split]. lazy -[N.add N.modulo N.ltb N.eqb N.leb app c_incr]. destruct (N.ltb 0 (c_incr v)); reflexivity.
Qed.
Lemma csteps_app (T : Type) ls ls' (s : cstate T) : csteps s (ls ++ ls') = match csteps s ls with Some s' => csteps s' ls' | None => None end.
Proof. revert s. induction ls as [|l ls IH]; intro s; cbn [csteps app]; [reflexivity|]. destruct (cstep s l); [apply IH|reflexivity]. Qed.
Lemma produce_many (T : Type) (x : T) (k : nat) : exists ls (s : cstate T), csteps (cinit 0%N true 1) ls = Some s /\ stages s = [SIdle] /\ length (produced s) = k /\ consumed s = [] /\
  value (handler s) = (N.of_nat k mod 2 ^ 32)%N /\ foreground s = [] /\ pop_mutex s = None /\ results s = [] /\
  threads (handler s) = [Idle] /\ mutex (handler s) = None /\ status (handler s) = None /\ waiting (handler s) = 0.
Proof.
  induction k as [|k (ls & s & E & S1 & S2 & S3 & S4 & S5 & S6 & S7 & S8 & S9 & S10 & S11)].
  - exists []. eexists. split; [reflexivity|]. repeat split.
  - destruct s as [h fg bg pm st pr rs]. cbn [stages produced consumed results handler foreground pop_mutex] in *. subst fg st pm rs.
    destruct (produce_one T x h [] bg pr [] S8 S9 S10 S11) as (h' & E' & H1 & H2 & H3 & H4 & H5).
    exists (ls ++ [CCall 0 (Produce x); CQueue 0; CRun 0 1]). eexists. rewrite csteps_app, E. split; [exact E'|]. cbn [stages produced consumed results handler foreground pop_mutex].
    rewrite app_length, H5, S4. cbn [length]. repeat split; try assumption; [lia|]. unfold c_incr. rewrite N.add_mod_idemp_l by discriminate. f_equal. lia.
Qed.
Lemma produce_times (T : Type) (x : T) (k : N) : exists ls (s : cstate T), csteps (cinit 0%N true 1) ls = Some s /\ quiet s /\
  N.of_nat (length (produced s)) = k /\ consumed s = [] /\ value (handler s) = (k mod 2 ^ 32)%N.
Proof.
  destruct (produce_many T x (N.to_nat k)) as (ls & s & E & S1 & S2 & S3 & S4 & _). exists ls, s. split; [exact E|]. split; [|split; [|split; [exact S3|]]].
  - intros t g H. rewrite S1 in H. destruct t as [|[|t]]; try discriminate. injection H as <-. reflexivity.
  - rewrite S2. apply N2Nat.id.
  - rewrite S4, N2Nat.id. reflexivity.
Qed.
Lemma overflow_lemma : forall (T : Type) (x : T), exists ls (s : cstate T), csteps (cinit 0%N true 1) ls = Some s /\ quiet s /\
  N.of_nat (length (produced s)) = (2 ^ 32)%N /\ consumed s = [] /\ value (handler s) = 0%N.
Proof. intros T x. exact (produce_times T x (2 ^ 32)%N). Qed.

Lemma prefix_lemma : forall (T : Type) v en n (s : cstate T), creachable (cinit v en n) s ->
  prefix (consumed s) (produced s) /\ produced s = consumed s ++ foreground s ++ background s.
Proof. intros T v en n s R. split; [eexists|]; exact (order_lemma T v en n s R). Qed.
