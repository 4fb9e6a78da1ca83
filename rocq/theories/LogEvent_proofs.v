(** Proofs about log event handlers. *)
From Coq Require Import ZifyBool ZifyNat.
From Verif Require Import LogEvent_model LogEvent_spec.

Ltac sf := cbn [owner logger virtual threshold_of storage entries connected registered im_locked is_set count verbosity queue history
  go log_go say set_object set_storage set_connection set_event set_log] in *.

(** ** All cases of a step *)
Ltac splits E :=
  repeat (match type of E with
  | (if ?c then _ else _) = _ => destruct c eqn:?
  | Some (if ?c then _ else _) = _ => destruct c eqn:?
  | Some (log_go _ (if ?c then _ else _)) = _ => destruct c eqn:?
  | Some (say (go _ (if ?c then _ else _)) _) = _ => destruct c eqn:?
  | Some (say (go (match ?c with _ => _ end) _) _) = _ => destruct c eqn:?
  | Some (say (go (raise_verbosity _ ?k) _) _) = _ => unfold raise_verbosity in E
  | Some (go _ (match ?c with _ => _ end)) = _ => destruct c eqn:?
  | Some (say (go (if ?c then _ else _) _) _) = _ => destruct c eqn:?
  | Some (say (go _ (match ?c with _ => _ end)) _) = _ => destruct c eqn:?
  | Some (match ?c with PlainHandler => _ | _ => _ end) = _ => destruct c eqn:?
  | Some (match ?c with Some _ => _ | None => _ end) = _ => destruct c eqn:?
  | match ?c with _ => _ end = _ => destruct c eqn:?
  end; try discriminate E); try discriminate E.

Ltac crack E :=
  match type of E with lstep ?cl ?x ?l = Some _ => destruct l; cbn [lstep] in E; unfold consume, run, dispatch, raise_verbosity in E end;
  splits E; injection E as <-; sf.

Definition b2n (b : bool) : nat := if b then 1 else 0.
Definition events_eq (a b : levent) : bool :=
  match a, b with
  | VConstructed, VConstructed | VDestroying, VDestroying | VStorageGone, VStorageGone | VReleased, VReleased | VUnset, VUnset | VDangling, VDangling | VIndeterminate, VIndeterminate => true
  | _, _ => false
  end.
Definition has (e : levent) (ev : list levent) : bool := existsb (events_eq e) ev.
Lemma has_in e ev : events_eq e e = true -> has e ev = true <-> In e ev.
Proof.
  intro H. unfold has. rewrite existsb_exists. split.
  - intros (y & I & Q). destruct e, y; try discriminate Q; exact I.
  - intro I. exists e. auto.
Qed.

(** ** What the owner has done *)
Definition before_connect (p : opc) := match p with OConnect => true | _ => false end.
Definition before_storage (p : opc) := match p with OConnect | OStorage => true | _ => false end.
Definition before_register (p : opc) := match p with OConnect | OStorage | ORegister => true | _ => false end.
Definition constructing (p : opc) := match p with OConnect | OStorage | ORegister | OSetLock true | OSetIn true | OVtable | OThreshold | OVerbosity => true | _ => false end.
Definition destroying (p : opc) := match p with OUnvtable | OUnsetTest true | OUnsetLock true | OUnsetIn true | ODropStorage | ORelease | ODropBase | OGone => true | _ => false end.
Definition dropped (p : opc) := match p with ORelease | ODropBase | OGone => true | _ => false end.
Definition after_release (p : opc) := match p with ODropBase | OGone => true | _ => false end.
Definition o_holds (p : opc) := match p with OSetIn _ | OUnsetIn _ => true | _ => false end.
Definition l_holds (p : lpc) := match p with LEventIn _ | LIn _ => true | _ => false end.
Definition derived (p : opc) := match p with OThreshold | OVerbosity | OLive | OSetLock false | OSetIn false | OUnsetTest false | OUnsetLock false | OUnsetIn false | OUnvtable => true | _ => false end.
Definition early (p : opc) := match p with OConnect | OStorage | ORegister | OSetLock true | OSetIn true | OVtable | OThreshold => true | _ => false end.
Definition plain_free (p : opc) := match p with OVtable | OThreshold | OUnvtable => true | _ => false end.

Definition inv (cl : class) (x : lstate) : Prop :=
  connected x = negb (before_connect (owner x)) && negb (after_release (owner x)) /\
  storage x = negb (before_storage (owner x)) && negb (dropped (owner x)) /\
  registered x = negb (before_register (owner x)) /\
  virtual x = (if derived (owner x) then cl else PlainHandler) /\
  threshold_of x = (if early (owner x) then None else match cl with SevereHandler k => Some k | PlainHandler => None end) /\
  (cl = PlainHandler -> plain_free (owner x) = false) /\
  has VConstructed (history x) = negb (constructing (owner x)) /\
  has VDestroying (history x) = destroying (owner x) /\
  has VStorageGone (history x) = dropped (owner x) /\
  has VReleased (history x) = after_release (owner x) /\
  (guarding (logger x) = true -> before_register (owner x) = false /\ after_release (owner x) = false) /\
  (logger x <> LIdle -> before_register (owner x) = false) /\
  b2n (im_locked x) = b2n (o_holds (owner x)) + b2n (l_holds (logger x)) /\
  last_set (history x) = is_set x /\
  (forall e, logger x = LIn e -> is_set x = true).

Lemma has_cons e a ev : has e (a :: ev) = events_eq e a || has e ev.
Proof. reflexivity. Qed.

Ltac oq := repeat match goal with H : owner ?x = _ |- _ => rewrite H in * | H : logger ?x = _ |- _ => rewrite H in * end.

Lemma inv_step cl x l x' : inv cl x -> lstep cl x l = Some x' -> inv cl x'.
Proof.
  intros I E. crack E; destruct I as (I1 & I2 & I3 & I4 & I5 & I6 & I7 & I8 & I9 & I10 & I11 & I12 & I13 & I14 & I15); unfold inv; sf; oq.
  all: rewrite ?has_cons.
  all: repeat match goal with b : bool |- _ => destruct b end.
  all: cbn [before_connect before_storage before_register constructing destroying dropped after_release o_holds l_holds derived early plain_free events_eq orb andb negb b2n last_set guarding] in *.
  all: repeat match goal with |- _ /\ _ => split end; intros; try assumption; try reflexivity; try discriminate; try congruence.
  all: try (apply I12; discriminate). all: try (apply I11; reflexivity).
  all: try (match goal with H : im_locked _ = _ |- _ => rewrite H in * end; cbn [b2n] in *; destruct (l_holds (logger x)), (o_holds (owner x)); cbn [b2n] in *; first [discriminate|reflexivity|exact I13]).
  all: try (eapply I15; eassumption). all: try (split; reflexivity). all: try (apply I6; assumption).
  all: try (destruct I11 as [? ?]; [reflexivity|]; first [assumption|split; assumption]).
  all: try (destruct (im_locked x), (l_holds (logger x)), (o_holds (owner x)); cbn [b2n] in *; first [discriminate|reflexivity]).
  all: try (apply I11; assumption). all: try (apply I12; assumption).
  all: try (destruct (before_register (owner x)), (before_connect (owner x)), (after_release (owner x)); cbn in *; repeat split; congruence).
  { split; [apply I12; discriminate|]. rewrite I1 in Heqb. destruct (before_connect (owner x)), (after_release (owner x)); cbn in Heqb; congruence. }
  all: match goal with H : logger _ = LIn _ |- _ => rewrite H in I13; destruct (im_locked x); cbn [b2n l_holds] in I13; discriminate I13 end.
Qed.

Lemma inv_reach cl v allowed x : lreachable cl v allowed x -> inv cl x.
Proof.
  induction 1 as [|x l x' R IH A E]; [|exact (inv_step _ _ _ _ IH E)].
  unfold inv, linit; cbn. repeat split; auto; intros; congruence.
Qed.

Lemma reach_steps cl v allowed x ls : lreachable cl v allowed x ->
  (forall y l, In l ls -> allowed y l) -> forall x', lsteps cl x ls = Some x' -> lreachable cl v allowed x'.
Proof.
  revert x. induction ls as [|l ls IH]; intros x R A x' E; cbn in E; [injection E as <-; exact R|].
  destruct (lstep cl x l) as [y|] eqn:E1; [|discriminate E]. eapply IH; [|intros; apply A; right; assumption|exact E].
  eapply lr_step; [exact R|apply A; left; reflexivity|exact E1].
Qed.

(** ** Conditions on each moment *)
Section MOMENT.
  Variable cond : levent -> list levent -> Prop.
  Fixpoint each (ev : list levent) : Prop := match ev with [] => True | e :: ev' => cond e ev' /\ each ev' end.
  Lemma each_moment ev newer e older : each ev -> ev = newer ++ e :: older -> cond e older.
  Proof.
    revert ev. induction newer as [|a newer IH]; intros ev F ->; cbn in F; [exact (proj1 F)|]. eapply IH; [exact (proj2 F)|reflexivity].
  Qed.
  Lemma each_reach cl v allowed x : (forall x l x' e, lreachable cl v allowed x -> allowed x l -> lstep cl x l = Some x' -> history x' = e :: history x -> cond e (history x)) ->
    lreachable cl v allowed x -> each (history x).
  Proof.
    intros C. induction 1 as [|x l x' R IH A E]; [exact Logic.I|].
    assert (history x' = history x \/ exists e, history x' = e :: history x) as [-> | [e He]].
    - clear - E. crack E; first [left; reflexivity|right; eexists; reflexivity].
    - exact IH.
    - rewrite He. split; [exact (C _ _ _ _ R A E He)|exact IH].
  Qed.
End MOMENT.

Lemma not_itself {A} (e : A) l : l = e :: l -> False.
Proof. intro H. apply (f_equal (@List.length _)) in H. cbn in H. lia. Qed.

Definition cond1 (cl : class) (e : levent) (older : list levent) : Prop :=
  (touches e -> has VReleased older = false) /\
  (e = VDangling -> has VStorageGone older = true) /\
  (e = VIndeterminate -> has VConstructed older = false /\ cl <> PlainHandler) /\
  (forall n, e = VCalled n -> last_set older = true).
Lemma cond1_lemma cl v allowed x l x' e : lreachable cl v allowed x -> lstep cl x l = Some x' -> history x' = e :: history x -> cond1 cl e (history x).
Proof.
  intros R E H. apply inv_reach in R. unfold cond1.
  crack E; try (exfalso; exact (not_itself _ _ H)); injection H as <-; cbn [touches]; repeat match goal with |- _ /\ _ => split end; intros; try contradiction; try discriminate.
  all: destruct R as (I1 & I2 & I3 & I4 & I5 & I6 & I7 & I8 & I9 & I10 & I11 & I12 & I13 & I14 & I15); oq; cbn [guarding] in *.
  all: try (rewrite I10; apply I11; reflexivity).
  all: try congruence.
  - assert (cl = SevereHandler threshold) as -> by (destruct (derived (owner x)); congruence). split; [|discriminate]. rewrite I7.
    destruct (early (owner x)) eqn:D; [|congruence]. destruct (owner x) as [| | |[]|[]| | | | |[]|[]|[]| | | | |]; first [discriminate D|reflexivity].
  - rewrite I9. rewrite I2 in Heqb. assert (before_register (owner x) = false) by (apply I12; discriminate). destruct (owner x); cbn in *; try discriminate; auto.
Qed.

Lemma touched_lemma cl v allowed x e older : lreachable cl v allowed x -> moment x e older -> touches e -> ~ In VReleased older.
Proof.
  intros R [newer H] T I. apply (has_in VReleased older eq_refl) in I.
  assert (cond1 cl e older) as (C & _); [|rewrite (C T) in I; discriminate I].
  eapply each_moment; [|exact H]. eapply each_reach; [|exact R]. intros; eapply cond1_lemma; eassumption.
Qed.
Lemma window_lemma cl v allowed x older : lreachable cl v allowed x -> moment x VDangling older -> In VStorageGone older /\ ~ In VReleased older.
Proof.
  intros R M. split; [|eapply touched_lemma; [exact R|exact M|exact Logic.I]]. destruct M as [newer H].
  apply (has_in VStorageGone older eq_refl). assert (cond1 cl VDangling older) as (_ & C & _); [|auto].
  eapply each_moment; [|exact H]. eapply each_reach; [|exact R]. intros; eapply cond1_lemma; eassumption.
Qed.
Lemma early_lemma cl v allowed x older : lreachable cl v allowed x -> moment x VIndeterminate older -> ~ In VConstructed older.
Proof.
  intros R [newer H] I. apply (has_in VConstructed older eq_refl) in I. assert (cond1 cl VIndeterminate older) as (_ & _ & C & _); [|destruct (C eq_refl); congruence].
  eapply each_moment; [|exact H]. eapply each_reach; [|exact R]. intros; eapply cond1_lemma; eassumption.
Qed.
Lemma only_set_lemma cl v allowed x n older : lreachable cl v allowed x -> moment x (VCalled n) older -> last_set older = true.
Proof.
  intros R [newer H]. assert (cond1 cl (VCalled n) older) as (_ & _ & _ & C); [|exact (C _ eq_refl)].
  eapply each_moment; [|exact H]. eapply each_reach; [|exact R]. intros; eapply cond1_lemma; eassumption.
Qed.
Lemma unset_lemma cl v allowed x : lreachable cl v allowed x -> last_set (history x) = false -> ~ running x.
Proof.
  intros R L [e H]. apply inv_reach in R. destruct R as (_ & _ & _ & _ & _ & _ & _ & _ & _ & _ & _ & _ & _ & I14 & I15). rewrite (I15 _ H) in I14. congruence.
Qed.
Lemma gone_lemma cl v allowed x : lreachable cl v allowed x -> In VReleased (history x) -> guarding (logger x) = false.
Proof.
  intros R L. apply inv_reach in R. apply (has_in VReleased _ eq_refl) in L. destruct R as (_ & _ & _ & _ & _ & _ & _ & _ & _ & I10 & I11 & _).
  destruct (guarding (logger x)); [|reflexivity]. destruct (I11 eq_refl). congruence.
Qed.

(** ** Order *)
Lemma taken_cons e ev : taken (e :: ev) = taken ev ++ match e with VTaken n => [n] | _ => [] end.
Proof. unfold taken. cbn [rev]. rewrite flat_map_app. cbn [flat_map]. rewrite app_nil_r. reflexivity. Qed.
Lemma stored_cons e ev : stored (e :: ev) = stored ev ++ match e with VStored n => [n] | _ => [] end.
Proof. unfold stored. cbn [rev]. rewrite flat_map_app. cbn [flat_map]. rewrite app_nil_r. reflexivity. Qed.
Lemma called_cons e ev : called (e :: ev) = called ev ++ match e with VCalled n => [n] | _ => [] end.
Proof. unfold called. cbn [rev]. rewrite flat_map_app. cbn [flat_map]. rewrite app_nil_r. reflexivity. Qed.
Lemma returns_cons e ev : returns (e :: ev) = match e with VReturned => 1 | _ => 0 end + returns ev.
Proof. unfold returns. cbn [filter]. destruct e; reflexivity. Qed.

Definition order (x : lstate) : Prop :=
  match logger x with
  | LEventLock e | LEventIn e => exists l, stored (history x) = l ++ [e] /\ subsequence (called (history x)) l
  | _ => subsequence (called (history x)) (stored (history x))
  end /\ (storage x = true -> entries x = stored (history x)) /\ count x = returns (history x) /\ (storage x = false -> before_storage (owner x) = true -> stored (history x) = []).

Lemma order_step cl x l x' : inv cl x -> order x -> lstep cl x l = Some x' -> order x'.
Proof.
  intros I O E. assert (owner x = OStorage -> storage x = false) as OS by (intro H; destruct I as (_ & I2 & _); rewrite H in I2; exact I2).
  assert (logger x <> LIdle -> before_storage (owner x) = false) as OB.
  { intro H. destruct I as (_ & _ & _ & _ & _ & _ & _ & _ & _ & _ & _ & I12 & _). specialize (I12 H). destruct (owner x); try discriminate; reflexivity. }
  clear I. crack E; destruct O as (O1 & O2 & O3 & O4); unfold order; sf; oq; rewrite ?stored_cons, ?called_cons, ?returns_cons, ?app_nil_r; cbn [Nat.add].
  all: split; [|split; [|split]].
  all: first [assumption | congruence | exact O1 | intros; discriminate | idtac].
  all: try (intros; symmetry; apply O4; [apply OS|]; reflexivity).
  all: try (intros; exfalso; specialize (OB ltac:(discriminate)); congruence).
  all: try (intros; apply O4; [assumption|reflexivity]).
  all: try (destruct O1 as (l1 & -> & O1); first [apply sub_keep; exact O1|apply sub_skip; exact O1]).
  all: try (intros; cbn [before_storage] in *; discriminate).
  all: try (exists (stored (history x)); split; [reflexivity|exact O1]).
  all: try (intros _; rewrite O2 by assumption; reflexivity).
Qed.

Lemma order_reach cl v allowed x : lreachable cl v allowed x -> order x.
Proof.
  induction 1 as [|x l x' R IH A E]; [|exact (order_step _ _ _ _ (inv_reach _ _ _ _ R) IH E)].
  unfold order, linit; cbn. repeat split; auto; try discriminate. exact sub_nil.
Qed.
Lemma order_lemma cl v allowed x : lreachable cl v allowed x ->
  subsequence (called (history x)) (stored (history x)) /\ (storage x = true -> entries x = stored (history x)) /\ count x = returns (history x).
Proof.
  intro R. apply order_reach in R. destruct R as (O1 & O2 & O3 & _). split; [|auto].
  destruct (logger x); try exact O1; destruct O1 as (l & -> & O1); apply sub_skip; exact O1.
Qed.

(** ** Entries given to a complete handler *)
Definition before_set (p : opc) : bool := match p with OConnect | OStorage | ORegister | OSetLock true | OSetIn true => true | _ => false end.
Definition pending (cl : class) (p : lpc) : list entry :=
  match p with LLease e | LDispatch e => if meant cl e then [e] else [] | LStore e => [e] | _ => [] end.
Definition uncalled (p : lpc) : list entry := match p with LEventLock e | LEventIn e => [e] | _ => [] end.
Definition calm (cl : class) (x : lstate) : Prop :=
  (constructing (owner x) = true -> logger x = LIdle) /\ (destroying (owner x) = true -> logger x = LIdle) /\
  has VDangling (history x) = false /\ has VIndeterminate (history x) = false /\
  filter (meant cl) (taken (history x)) = stored (history x) ++ pending cl (logger x) /\
  (has VUnset (history x) = false -> before_set (owner x) = false -> is_set x = true) /\
  (has VUnset (history x) = false -> stored (history x) = called (history x) ++ uncalled (logger x)).

Lemma calm_step cl x l x' : inv cl x -> calm cl x -> settled x l -> lstep cl x l = Some x' -> calm cl x'.
Proof.
  intros (I1 & I2 & I3 & I4 & I5 & I6 & I7 & I8 & I9 & I10 & I11 & I12 & I13 & I14 & I15) C A E.
  assert (logger x <> LIdle -> constructing (owner x) = false /\ destroying (owner x) = false) as CD.
  { intro H. destruct C as (C1 & C2 & _). split; [destruct (constructing (owner x)); [|reflexivity]|destruct (destroying (owner x)); [|reflexivity]]; exfalso; apply H; auto. }
  assert (constructing (owner x) = false -> destroying (owner x) = false -> virtual x = cl /\ threshold_of x = (match cl with SevereHandler k => Some k | PlainHandler => None end) /\ storage x = true /\ connected x = true /\ before_set (owner x) = false) as CL.
  { intros H1 H2. rewrite I4, I5, I2, I1. destruct (owner x) as [| | |[]|[]| | | | |[]|[]|[]| | | | |]; try discriminate H1; try discriminate H2; repeat split; reflexivity. }
  assert (In VConstructed (history x) /\ ~ In VDestroying (history x) -> constructing (owner x) = false /\ destroying (owner x) = false) as ST.
  { intros [H1 H2]. apply (has_in VConstructed _ eq_refl) in H1. rewrite I7 in H1. destruct (destroying (owner x)) eqn:D; [exfalso; apply H2; apply (has_in VDestroying _ eq_refl); exact I8|].
    destruct (constructing (owner x)); [discriminate|auto]. }
  clear I1 I2 I3 I4 I5 I7 I8 I9 I10 I11 I12 I13 I14 I15.
  crack E; destruct C as (C1 & C2 & C3 & C4 & C5 & C6 & C7); unfold calm; sf; oq; cbn [settled] in A; rewrite ?has_cons, ?taken_cons, ?stored_cons, ?called_cons, ?app_nil_r.
  all: try (specialize (CD ltac:(discriminate)); destruct CD as [CD1 CD2]; destruct (CL CD1 CD2) as (K1 & K2 & K3 & K4 & K5)).
  all: try (destruct (ST A) as [CD1 CD2]; destruct (CL CD1 CD2) as (K1 & K2 & K3 & K4 & K5)).
  all: repeat match goal with b : bool |- _ => destruct b end.
  all: cbn [constructing destroying before_set events_eq orb pending uncalled] in *; rewrite ?app_nil_r in *.
  all: repeat match goal with |- _ /\ _ => split end; intros; try discriminate; try assumption; try congruence; auto.
  all: rewrite ?filter_app, ?app_nil_r; cbn [filter]; try congruence.
  all: try (rewrite C5; destruct (meant cl e); reflexivity).
  all: try (exfalso; match goal with H : has VUnset _ = false |- _ => specialize (C6 H K5); congruence end).
  all: try (rewrite C7 by assumption; reflexivity).
  all: try (rewrite C5; destruct cl as [|k]; cbn [meant]; [reflexivity|]; try discriminate; injection K2 as K2; try congruence).
  all: try (exfalso; destruct cl; congruence).
  all: try (match goal with H1 : threshold_of _ = Some ?a, H2 : kle (level _) ?a = _ |- _ => rewrite K2 in H1; injection H1 as H1; subst; rewrite H2; cbn; rewrite ?app_nil_r; reflexivity end).
  all: subst cl; injection K2 as <-; rewrite C5; cbn [meant]; match goal with H : kle (level _) _ = _ |- _ => rewrite H end; rewrite ?app_nil_r; reflexivity.
Qed.
Lemma calm_reach cl v x : lreachable cl v settled x -> calm cl x.
Proof.
  induction 1 as [|x l x' R IH A E]; [|exact (calm_step _ _ _ _ (inv_reach _ _ _ _ R) IH A E)].
  unfold calm, linit; cbn. repeat split; auto; intros; discriminate.
Qed.

Lemma settled_safe cl v x : lreachable cl v settled x -> ~ In VDangling (history x) /\ ~ In VIndeterminate (history x).
Proof.
  intro R. apply calm_reach in R. destruct R as (_ & _ & C3 & C4 & _).
  split; intro I; [apply (has_in VDangling _ eq_refl) in I|apply (has_in VIndeterminate _ eq_refl) in I]; congruence.
Qed.
Lemma in_sub {A} (a b : list A) y : subsequence a b -> In y a -> In y b.
Proof. induction 1; intro H1; [exact H1| |]; rewrite ?in_app_iff in *; tauto. Qed.
Lemma in_called n ev : In (VCalled n) ev <-> In n (called ev).
Proof.
  unfold called. rewrite in_flat_map. split.
  - intro H. exists (VCalled n). rewrite <- in_rev. cbn. auto.
  - intros (e & H & Q). rewrite <- in_rev in H. destruct e; try contradiction. destruct Q as [->|[]]. exact H.
Qed.
Lemma in_stored n ev : In (VStored n) ev <-> In n (stored ev).
Proof.
  unfold stored. rewrite in_flat_map. split.
  - intro H. exists (VStored n). rewrite <- in_rev. cbn. auto.
  - intros (e & H & Q). rewrite <- in_rev in H. destruct e; try contradiction. destruct Q as [->|[]]. exact H.
Qed.
Lemma settled_meant cl v x e : lreachable cl v settled x -> In (VCalled e) (history x) \/ In (VStored e) (history x) -> meant cl e = true.
Proof.
  intros R H. assert (In e (stored (history x))) as I.
  { destruct H as [H|H]; [|apply in_stored; exact H]. eapply in_sub; [apply (order_lemma _ _ _ _ R)|]. apply in_called. exact H. }
  apply calm_reach in R. destruct R as (_ & _ & _ & _ & C5 & _).
  assert (In e (filter (meant cl) (taken (history x)))) as F by (rewrite C5; apply in_or_app; left; exact I). apply filter_In in F. tauto.
Qed.
Lemma settled_each cl v x : lreachable cl v settled x -> logger x = LIdle ->
  stored (history x) = filter (meant cl) (taken (history x)) /\ (~ In VUnset (history x) -> called (history x) = filter (meant cl) (taken (history x))).
Proof.
  intros R L. apply calm_reach in R. destruct R as (_ & _ & _ & _ & C5 & _ & C7). rewrite L in C5, C7. cbn [pending uncalled] in C5, C7. rewrite !app_nil_r in *.
  split; [congruence|]. intro U. rewrite C5. symmetry. apply C7. destruct (has VUnset (history x)) eqn:H; [|reflexivity].
  apply (has_in VUnset _ eq_refl) in H. contradiction.
Qed.

(** ** Progress *)
Definition owner_work (p : opc) : nat :=
  match p with
  | OConnect => 20 | OStorage => 19 | ORegister => 18 | OSetLock true => 17 | OSetIn true => 16 | OVtable => 15 | OThreshold => 14 | OVerbosity => 13
  | OLive => 0 | OSetLock false => 2 | OSetIn false => 1 | OUnsetTest false => 3 | OUnsetLock false => 2 | OUnsetIn false => 1
  | OUnvtable => 8 | OUnsetTest true => 7 | OUnsetLock true => 6 | OUnsetIn true => 5 | ODropStorage => 4 | ORelease => 3 | ODropBase => 2 | OGone => 0
  end.
Definition logger_work (p : lpc) : nat :=
  match p with LIdle => 0 | LLease _ => 6 | LDispatch _ => 5 | LStore _ => 4 | LEventLock _ => 3 | LEventIn _ => 2 | LIn _ => 1 | LBroken => 0 end.
Definition work (x : lstate) : nat := owner_work (owner x) + logger_work (logger x) + 8 * List.length (queue x).

Lemma work_step cl x l x' : own_step l -> lstep cl x l = Some x' -> work x' < work x.
Proof.
  intros O E. crack E; try contradiction O; unfold work; sf; oq;
    repeat match goal with b : bool |- _ => destruct b end; repeat match goal with H : queue ?x = _ |- _ => rewrite H in * end; cbn [owner_work logger_work List.length] in *; try lia.
Qed.
Lemma work_steps cl ls : forall x x', Forall own_step ls -> lsteps cl x ls = Some x' -> List.length ls + work x' <= work x.
Proof.
  induction ls as [|l ls IH]; intros x x' F E; cbn [lsteps List.length] in *; [injection E as <-; lia|].
  destruct (lstep cl x l) as [y|] eqn:E1; [|discriminate E]. inversion F as [|? ? F1 F2]; subst.
  pose proof (work_step _ _ _ _ F1 E1). specialize (IH _ _ F2 E). lia.
Qed.
Lemma stops cl v allowed x : lreachable cl v allowed x -> (forall l, own_step l -> lstep cl x l = None) -> ~ inside x.
Proof.
  intros R N [H1 H2]. apply inv_reach in R. destruct R as (_ & _ & _ & _ & _ & _ & _ & _ & _ & _ & _ & _ & I13 & _).
  pose proof (N Run Logic.I) as NR. pose proof (N Consume Logic.I) as NC. cbn [lstep] in NR, NC. unfold run in NR. unfold consume in NC.
  destruct (im_locked x) eqn:M; cbn [b2n] in I13; destruct (owner x) eqn:O; try discriminate NR; try congruence; cbn [o_holds b2n] in I13;
    destruct (logger x); cbn [l_holds b2n guarding] in *; try discriminate; try lia.
Qed.
Lemma returns_lemma cl v allowed x : lreachable cl v allowed x -> exists bound, forall ls x', Forall own_step ls -> lsteps cl x ls = Some x' ->
  List.length ls <= bound /\ ((forall l, own_step l -> lstep cl x' l = None) -> ~ inside x').
Proof.
  intro R. exists (work x). intros ls x' F E. pose proof (work_steps _ _ _ _ F E). split; [lia|]. apply (stops cl v always).
  assert (lreachable cl v always x) as R' by (clear - R; induction R as [|y l z R IH A E]; [apply lr_init|eapply lr_step; [exact IH|exact Logic.I|exact E]]).
  eapply reach_steps; [exact R'|intros; exact Logic.I|exact E].
Qed.

(** ** Verbosity *)
Lemma loud_reach cl v x : lreachable cl v alone x -> constructing (owner x) = false -> forall k, cl = SevereHandler k -> kle k (verbosity x) = true.
Proof.
  induction 1 as [|x l x' R IH A E]; [discriminate|]. intros C k K. pose proof (inv_reach _ _ _ _ R) as I.
  crack E; try contradiction A; oq; cbn [constructing] in *; subst; try (exact (IH eq_refl _ eq_refl)); try (exact (IH C _ eq_refl)); try discriminate.
  all: try (match goal with H : SevereHandler _ = SevereHandler _ |- _ => injection H as -> end).
  all: repeat match goal with b : bool |- _ => destruct b end; cbn [constructing] in *; try discriminate; try (exact (IH eq_refl _ eq_refl)).
  all: try (unfold kle; apply Nat.leb_refl).
  all: try (destruct k; try discriminate; reflexivity).
Qed.
Lemma loud_lemma cl v x e older k : lreachable cl v alone x -> moment x (VHidden e) older -> In VConstructed older -> cl = SevereHandler k -> kle (level e) k = false.
Proof.
  intros R [newer H] I K.
  assert ((fun e older => forall n, e = VHidden n -> has VConstructed older = true -> kle (level n) k = false) (VHidden e) older) as C.
  { refine (each_moment (fun e older => forall n, e = VHidden n -> has VConstructed older = true -> kle (level n) k = false) _ _ _ _ _ H). eapply each_reach; [|exact R]. clear - K. intros x l x' a R A E Ha n -> Hc.
    assert (constructing (owner x) = false) as Hd.
    { pose proof (inv_reach _ _ _ _ R) as (_ & _ & _ & _ & _ & _ & I7 & _). rewrite I7 in Hc. destruct (constructing (owner x)); [discriminate|reflexivity]. }
    pose proof (loud_reach _ _ _ R Hd _ K) as L. clear R A Hd Hc. crack E; try (exfalso; exact (not_itself _ _ Ha)); injection Ha as Ha; try discriminate; subst.
    unfold kle in *. lia. }
  apply (C e eq_refl). apply (has_in VConstructed _ eq_refl). exact I.
Qed.
