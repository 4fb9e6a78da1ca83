(** Proofs of C157: a potential that every step of the threads decreases. *)
From Coq Require Import ZifyBool ZifyNat ZifyN.
From Verif Require Import Periodic_model Periodic_spec Periodic_proofs PeriodicRest_spec.
Local Arguments N.leb : simpl never.
Local Arguments N.add : simpl never.
Local Arguments number_of : simpl never.

Definition expired (s : pstate) (d : N) : nat := if N.leb d (now s) then 10 else 0.
Definition tleft (s : pstate) : nat :=
  match timer s with
  | PNone | PEnded | PSelf => 0
  | PLoop => if active s then 5 else 1
  | PLock => 4 | PWait => 3
  | PTest d => 2 + expired s d
  | PBlock d => 1 + expired s d
  | PSleep d => expired s d
  | PWake d => 3 + expired s d
  | PTimed => 9
  | PAfter => if active s then 8 else 1
  | PWant => 7 | PIn => 6 | PNest _ => 7
  end.
Definition left (p : cpc) : nat :=
  match p with
  | CIdle => 0
  | SUnlock | UUnlock | EIn => 1
  | ELock | UJoin => 2
  | SThread => 10 | SActive => 30 | SSet => 31 | SLock => 32
  | UNotify => 20 | UStop => 21 | UClear => 22 | ULock => 23
  end.
Definition potential (s : pstate) : nat := tleft s + number_of left (clients s).

Lemma step_less s l s' : (0 < period s)%N -> goes_on l -> pstep s l = Some s' -> potential s' < potential s.
Proof.
  intros K G E. assert (G' : match l with Timer | Timeout | Run _ => True | _ => False end) by (destruct G as [-> |[-> |[t ->]]]; exact I).
  crack E; try destruct G'; unfold potential, tleft, expired; sf; tm;
    try match goal with H : nth_error (clients s) ?t = Some _ |- context [upd (clients s) ?t ?q] => pose proof (number_upd left _ _ q _ H) as U; cbn [left] in U end;
    repeat match goal with H : active s = _ |- _ => rewrite H in * end; try lia.
  all: repeat match goal with |- context [N.leb ?a ?b] => destruct (N.leb a b) eqn:? end; try lia.
  all: destruct (timer s); try destruct (active s); try lia.
Qed.
Lemma goes_quiet l : goes_on l -> quiet l.
Proof. intros [-> |[-> |[t ->]]]; exact I. Qed.
Lemma few_steps k n ls : (0 < k)%N -> forall s s', preachable quiet k n s -> Forall goes_on ls -> psteps s ls = Some s' -> preachable quiet k n s' /\ length ls + potential s' <= potential s.
Proof.
  intro K. induction ls as [|l ls IH]; intros s s' R F E; cbn [psteps] in E; [injection E as <-; split; [exact R|cbn; lia]|].
  destruct (pstep s l) as [s0|] eqn:E0; [|discriminate]. inversion F as [|? ? F1 F2]; subst. pose proof (proj2 (reach_timing _ _ _ _ R)) as P.
  assert (L : potential s0 < potential s) by (apply (step_less s l s0); [rewrite P; exact K|exact F1|exact E0]).
  destruct (IH s0 s') as [R' L']; [econstructor; [exact R|apply goes_quiet; exact F1|exact E0]|exact F2|exact E|]. split; [exact R'|]. cbn [length]. lia.
Qed.

(** the end of a wait is at most one period away *)
Definition near (s : pstate) : Prop := match timer s with PTest d | PBlock d | PSleep d | PWake d => (d <= now s + period s)%N | _ => True end.
Lemma step_near s l s' : near s -> pstep s l = Some s' -> near s'.
Proof. unfold near. intros H E. crack E; tm; try exact I; try exact H; try lia. destruct (timer s); try exact I; lia. Qed.
Lemma reach_near allowed k n s : preachable allowed k n s -> near s.
Proof. intro R. induction R as [|s l s' R IH A E]; [exact I|exact (step_near _ _ _ IH E)]. Qed.

Lemma at_rest_lemma k n s : preachable quiet k n s -> at_rest s -> (forall t p, nth_error (clients s) t = Some p -> p = CIdle) /\
  if last_set (history s) then exists d, timer s = PSleep d /\ (now s < d <= now s + k)%N else timer s = PNone.
Proof.
  intros R Q. assert (C : forall t p, nth_error (clients s) t = Some p -> p = CIdle).
  { intros t p Hp. destruct p; try reflexivity; exfalso.
    all: destruct (progress_lemma k n s t _ R Hp) as (l & s' & O & E); [discriminate|]; rewrite Q in E; [discriminate|]; destruct l; try destruct O; [left; reflexivity|right; right; eauto]. }
  split; [exact C|]. destruct (reach_inv _ _ _ _ R) as [L P]. pose proof (quiet_timer _ _ _ R) as Qt. destruct (reach_agreed _ _ _ R) as [A _].
  assert (Em : em_locked s = false).
  { destruct (em_locked s) eqn:Em; [|reflexivity]. destruct (has_crit _ L Em (proj2 (Qt true))) as (t & p & H & K). rewrite (C _ _ H) in K. discriminate K. }
  specialize (A Em). unfold agrees in A. rewrite <- A. destruct (proj1 P Em) as [Ra Rt]. rewrite <- Ra in Rt. destruct (is_set s) eqn:Is; [|exact Rt].
  assert (Im : in_cb (timer s) = false -> im_locked s = false).
  { intro J. destruct (im_locked s) eqn:Im; [|reflexivity]. destruct (has_calling _ L Im J) as [t H]. discriminate (C _ _ H). }
  pose proof (proj2 (proj2 L)) as Pm. pose proof (reach_near _ _ _ _ R) as Nr. unfold near in Nr. rewrite (proj2 (reach_timing _ _ _ _ R)) in Nr.
  assert (E1 : pstep s Timer = None) by (apply Q; left; reflexivity). assert (E2 : pstep s Timeout = None) by (apply Q; right; left; reflexivity). cbn [pstep] in E1, E2. unfold tstep in E1.
  destruct (timer s) as [| | | |d|d|d| | | | |b| | |d] eqn:T; try discriminate Rt; cbn [holds in_cb] in *; rewrite ?Pm in E1; try discriminate E1.
  - destruct (N.leb d (now s)) eqn:Ed; [discriminate E2|]. exists d. split; [reflexivity|]. lia.
  - rewrite (Im eq_refl), Is in E1. discriminate E1.
  - exfalso. exact (proj1 (Qt b) eq_refl).
  - exfalso. exact (proj2 (Qt true) eq_refl).
Qed.
Lemma rest_lemma : forall k n s, (0 < k)%N -> preachable quiet k n s -> exists bound, forall ls s', Forall goes_on ls -> psteps s ls = Some s' ->
  length ls <= bound /\ (at_rest s' -> (forall t p, nth_error (clients s') t = Some p -> p = CIdle) /\ if last_set (history s') then exists d, timer s' = PSleep d /\ (now s' < d <= now s' + k)%N else timer s' = PNone).
Proof.
  intros k n s K R. exists (potential s). intros ls s' F E. destruct (few_steps k n ls K s s' R F E) as [R' L]. split; [lia|]. intro Q. exact (at_rest_lemma k n s' R' Q).
Qed.

(** ** The next call comes *)
Definition due (h0 : list pevent) (s : pstate) : Prop :=
  (forall t p, nth_error (clients s) t = Some p -> p = CIdle) /\ active s = true /\ is_set s = true /\ im_locked s = false /\ pm_locked s = holds (timer s) /\
  (match timer s with PSleep d => (d <= now s)%N | PTimed | PAfter | PWant => True | _ => False end) /\ history s = h0.
Definition came (h0 : list pevent) (s : pstate) : Prop := exists newer b older, history s = newer ++ VCalled b :: older ++ h0.
Lemma step_came h0 s l s' : came h0 s -> pstep s l = Some s' -> came h0 s'.
Proof.
  intros (newer & b & older & H) E. unfold came. destruct (step_history s l s' E) as [H'|[x H']]; rewrite H', H; [exists newer|exists (x :: newer)]; exists b, older; reflexivity.
Qed.
Lemma step_due h0 s l s' : due h0 s -> goes_on l -> pstep s l = Some s' -> due h0 s' \/ came h0 s'.
Proof.
  intros (C & A & I & Im & Pm & T & H) [-> |[-> |[t ->]]] E; cbn [pstep] in E.
  - unfold tstep in E. destruct (timer s) eqn:Et; try (exfalso; exact T); cbn [holds] in Pm; try discriminate E.
    + rewrite Pm in E. injection E as <-. left. repeat split; sf; auto.
    + rewrite A in E. injection E as <-. left. repeat split; sf; auto.
    + rewrite Im, I in E. injection E as <-. right. exists [], (now s), []. sf. rewrite H. reflexivity.
  - destruct (timer s) eqn:Et; try (exfalso; exact T); try discriminate E. cbn [holds] in Pm. destruct (N.leb d (now s)); [|discriminate E]. injection E as <-. left. repeat split; sf; auto.
  - destruct (nth_error (clients s) t) as [p|] eqn:Hp; [|discriminate E]. rewrite (C _ _ Hp) in E. discriminate E.
Qed.
Lemma steps_due h0 ls : forall s s', due h0 s \/ came h0 s -> Forall goes_on ls -> psteps s ls = Some s' -> due h0 s' \/ came h0 s'.
Proof.
  induction ls as [|l ls IH]; intros s s' D F E; cbn [psteps] in E; [injection E as <-; exact D|]. destruct (pstep s l) as [s0|] eqn:E0; [|discriminate]. inversion F as [|? ? F1 F2]; subst.
  apply (IH s0); [|exact F2|exact E]. destruct D as [D|D]; [exact (step_due h0 s l s0 D F1 E0)|right; exact (step_came h0 s l s0 D E0)].
Qed.
Lemma called_lemma : forall k n s wait s1 ls s', preachable quiet k n s -> at_rest s -> last_set (history s) = true -> (k <= wait)%N -> pstep s (Tick wait) = Some s1 -> Forall goes_on ls -> psteps s1 ls = Some s' -> at_rest s' ->
  exists newer b older, history s' = newer ++ VCalled b :: older ++ history s.
Proof.
  intros k n s wait s1 ls s' R Q S Wt E F E' Q'. destruct (at_rest_lemma k n s R Q) as [C X]. rewrite S in X. destruct X as (d & T & D1 & D2).
  destruct (reach_inv _ _ _ _ R) as [L P]. pose proof (quiet_timer _ _ _ R) as Qt. destruct (reach_agreed _ _ _ R) as [A _].
  assert (Em : em_locked s = false).
  { destruct (em_locked s) eqn:Em; [|reflexivity]. destruct (has_crit _ L Em (proj2 (Qt true))) as (t & p & H & K). rewrite (C _ _ H) in K. discriminate K. }
  specialize (A Em). unfold agrees in A. rewrite S in A. destruct (proj1 P Em) as [Ra _]. rewrite A in Ra.
  assert (Im : im_locked s = false).
  { destruct (im_locked s) eqn:Im; [|reflexivity]. destruct (has_calling _ L Im) as [t H]; [rewrite T; reflexivity|]. discriminate (C _ _ H). }
  cbn [pstep] in E. injection E as <-. pose proof (proj2 (proj2 L)) as Pm.
  destruct (steps_due (history s) ls (set_now s (now s + wait)) s') as [D|D]; [left|exact F|exact E'| |exact D].
  - repeat split; sf; auto. rewrite T. lia.
  - exfalso. destruct D as (_ & A' & I' & Im' & Pm' & T' & _). assert (E1 : pstep s' Timer = None) by (apply Q'; left; reflexivity). assert (E2 : pstep s' Timeout = None) by (apply Q'; right; left; reflexivity). cbn [pstep] in E1, E2. unfold tstep in E1.
    destruct (timer s') eqn:Et; try (exfalso; exact T'); cbn [holds] in Pm'; rewrite ?Pm', ?Im', ?I' in E1; try discriminate E1. destruct (N.leb_spec d0 (now s')); [discriminate E2|lia].
Qed.
