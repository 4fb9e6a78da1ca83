(** Proofs about command readers. *)
From Coq Require Import ZifyBool ZifyNat.
From Verif Require Import Commands_model Commands_spec.

Ltac sf := cbn [value enabled is_set im_locked thread exists_queue queue ready owner readers history set_handler set_thread set_queue set_owner set_reader say] in *.
Ltac splits E :=
  repeat (match type of E with
  | (if ?c then _ else _) = _ => destruct c eqn:?
  | match ?c with _ => _ end = _ => destruct c eqn:?
  end; try discriminate E); try discriminate E.
Ltac crack E :=
  match type of E with rstep ?x ?a = Some _ => destruct a; cbn [rstep] in E; unfold thread_step, owner_step, read_step in E end;
  splits E; injection E as <-; sf.
Ltac tm := repeat match goal with H : thread ?x = _ |- _ => rewrite H in * | H : owner ?x = _ |- _ => rewrite H in * end.

Definition b2n (b : bool) : nat := if b then 1 else 0.
Lemma typed_cons e ev : typed (e :: ev) = typed ev ++ match e with VTyped l => [l] | _ => [] end.
Proof. unfold typed. cbn [rev]. rewrite flat_map_app. cbn [flat_map]. rewrite app_nil_r. reflexivity. Qed.
Lemma commands_cons e ev : commands (e :: ev) = commands ev ++ match e with VCommand _ l => [l] | _ => [] end.
Proof. unfold commands. cbn [rev]. rewrite flat_map_app. cbn [flat_map]. rewrite app_nil_r. reflexivity. Qed.
Lemma calls_cons e ev : calls (e :: ev) = match e with VCall _ => 1 | _ => 0 end + calls ev.
Proof. unfold calls. cbn [filter]. destruct e; reflexivity. Qed.
Lemma begun_cons e ev : begun (e :: ev) = match e with VBegin => 1 | _ => 0 end + begun ev.
Proof. unfold begun. cbn [filter]. destruct e; reflexivity. Qed.

(** ** Invariants of every run *)
Definition holding (p : tpc) : bool := match p with TPush _ | TCount | TRet | TBroken => true | _ => false end.
Definition pending (p : tpc) : list str := match p with TLine l | TPush l => [l] | _ => [] end.
Definition counted (p : tpc) : nat := match p with TCount => 1 | _ => 0 end.
Definition is_reading (p : tpc) : bool := match p with TRead => true | _ => false end.
Definition taking (p : rpc) : nat := match p with RTake => 1 | _ => 0 end.
Definition waits (p : rpc) : nat := match p with RConsume | RTake => 1 | _ => 0 end.
Definition wants (p : rpc) : nat := match p with RMore => 1 | _ => 0 end.
Definition live (p : opc) : bool := match p with OLive | ODrop => true | _ => false end.
Definition kept (p : opc) : bool := match p with ODisable | OJoin | OGone => false | _ => true end.
Definition closing (p : opc) : bool := match p with ODrop | OClear | ODisable | OJoin | OGone => true | _ => false end.

Definition inv (x : rstate) : Prop :=
  im_locked x = holding (thread x) /\
  exists_queue x = live (owner x) /\
  is_set x = kept (owner x) /\
  (enabled x = match owner x with OJoin | OGone => false | _ => true end) /\
  (owner x <> OLive -> number_of (fun p => if idle p then 0 else 1) (readers x) = 0) /\
  (owner x = OGone -> thread x = TEnded) /\
  (owner x = OBuild -> thread x = TWait /\ value x = 0 /\ queue x = [] /\ ready x = 0 /\ history x = []) /\
  (kept (owner x) = false -> holding (thread x) = false) /\
  (thread x <> TBroken -> ready x + number_of taking (readers x) + counted (thread x) = List.length (queue x)) /\
  begun (history x) = List.length (typed (history x)) + b2n (is_reading (thread x)).

Lemma number_le {A} (f g : A -> nat) l : (forall a, f a <= g a) -> number_of f l <= number_of g l.
Proof. intro H. induction l as [|a l IH]; unfold number_of in *; cbn; [lia|]. specialize (H a). lia. Qed.
Lemma idle_number l : forallb idle l = true -> number_of (fun p => if idle p then 0 else 1) l = 0.
Proof. induction l as [|a l IH]; unfold number_of in *; cbn; [reflexivity|]. intro H. apply andb_true_iff in H as [H1 H2]. rewrite H1, IH by exact H2. reflexivity. Qed.

Ltac numbers :=
  match goal with
  | H : nth_error (readers ?x) ?t = Some _ |- context [upd (readers ?x) ?t ?q] =>
      let G1 := fresh "G1" in let G2 := fresh "G2" in let G3 := fresh "G3" in let G4 := fresh "G4" in
      pose proof (number_upd (fun p => if idle p then 0 else 1) _ _ q _ H) as G1; pose proof (number_upd taking _ _ q _ H) as G2; pose proof (number_upd waits _ _ q _ H) as G3; pose proof (number_upd wants _ _ q _ H) as G4;
      cbn [idle taking waits wants] in G1, G2, G3, G4
  | _ => idtac
  end.
Lemma inv_step x a x' : inv x -> rstep x a = Some x' -> inv x'.
Proof.
  intros I E.
  assert (forall t p, nth_error (readers x) t = Some p -> idle p = false -> owner x = OLive) as OL.
  { intros t p H N. destruct I as (_ & _ & _ & _ & I5 & _). pose proof (number_ge (fun p => if idle p then 0 else 1) _ _ _ H) as G. cbn beta in G. rewrite N in G.
    destruct (owner x); try reflexivity; exfalso; specialize (I5 ltac:(discriminate)); lia. }
  crack E; try (match goal with H : nth_error (readers _) _ = Some _ |- _ => assert_succeeds (pose proof (OL _ _ H eq_refl)); let Z := fresh in pose proof (OL _ _ H eq_refl) as Z end); clear OL;
    destruct I as (I1 & I2 & I3 & I4 & I5 & I6 & I7 & I8 & I9 & I10); unfold inv; sf; tm; numbers; rewrite ?begun_cons, ?typed_cons, ?app_nil_r; cbn [holding live kept counted is_reading b2n pending Nat.add] in *.
  all: repeat match goal with |- _ /\ _ => split end; intros; try assumption; try congruence; try discriminate; try (rewrite ?app_length; cbn [List.length] in *; lia).
  all: try (apply I5; discriminate). all: try (apply I6; assumption). all: try (apply I8; assumption).
  all: try (rewrite ?app_length; cbn [List.length] in *; repeat match goal with H : ready _ = _ |- _ => rewrite H in * | H : queue _ = _ |- _ => rewrite H in * end; cbn [List.length] in *; lia).
  all: try (apply idle_number; assumption).
  all: try (exfalso; congruence).
  all: try (specialize (I7 ltac:(first [reflexivity|assumption])); destruct I7 as (J1 & J2 & J3 & J4 & J5); try discriminate; try congruence).
  all: try (repeat split; congruence).
  all: try (specialize (I6 ltac:(assumption)); discriminate I6).
  all: try (match goal with H : owner _ = _ |- _ => rewrite H in I4 end; congruence).
  all: try (specialize (I9 ltac:(first [discriminate|assumption])); rewrite ?app_length; cbn [List.length] in *; repeat match goal with H : ready _ = _ |- _ => rewrite H in * | H : queue _ = _ |- _ => rewrite H in * end; cbn [List.length] in *; lia).
Qed.
Lemma inv_reach n allowed x : rreachable n allowed x -> inv x.
Proof.
  induction 1 as [|x a x' R IH A E]; [|exact (inv_step _ _ _ IH E)].
  unfold inv, rinit; sf. rewrite !number_repeat by reflexivity. cbn. repeat split; auto; try discriminate.
Qed.

(** ** Order *)
Definition order (x : rstate) : Prop :=
  (exists later, typed (history x) = commands (history x) ++ later) /\
  (exists_queue x = true -> thread x <> TBroken /\ typed (history x) = commands (history x) ++ queue x ++ pending (thread x)).
Lemma order_step x a x' : inv x -> order x -> rstep x a = Some x' -> order x'.
Proof.
  intros I O E.
  assert (forall t p, nth_error (readers x) t = Some p -> idle p = false -> owner x = OLive) as OL.
  { intros t p H N. destruct I as (_ & _ & _ & _ & I5 & _). pose proof (number_ge (fun p => if idle p then 0 else 1) _ _ _ H) as G. cbn beta in G. rewrite N in G.
    destruct (owner x); try reflexivity; exfalso; specialize (I5 ltac:(discriminate)); lia. }
  destruct I as (I1 & I2 & I3 & I4 & I5 & I6 & I7 & I8 & I9 & I10).
  crack E; try (match goal with H : nth_error (readers _) _ = Some _ |- _ => assert_succeeds (pose proof (OL _ _ H eq_refl)); let Z := fresh in pose proof (OL _ _ H eq_refl) as Z end); clear OL;
    destruct O as ([later O1] & O2); unfold order; sf; tm; rewrite ?typed_cons, ?commands_cons, ?app_nil_r; cbn [pending live kept] in *; rewrite ?app_nil_r in *.
  all: split; [first [exists later; assumption | exists (later ++ [l]); rewrite O1, app_assoc; reflexivity | idtac]|].
  all: try (intro Q; try discriminate Q; try congruence; first [specialize (O2 Q)|specialize (O2 eq_refl)]; destruct O2 as [O2 O3]; split; [first [discriminate|assumption]|]; rewrite O3; rewrite ?app_nil_r, <- ?app_assoc; try reflexivity).
  all: try (destruct (owner x); cbn [live kept] in *; congruence).
  { destruct (O2 I2) as [_ O3]. exists (l ++ pending (thread x)). rewrite O3, Heql, <- !app_assoc. reflexivity. }
  { rewrite Heql. reflexivity. }
  intros _. destruct (I7 eq_refl) as (J1 & _ & _ & _ & J5). rewrite J1, J5. split; [discriminate|reflexivity].
Qed.
Lemma order_reach n allowed x : rreachable n allowed x -> order x.
Proof.
  induction 1 as [|x a x' R IH A E]; [|exact (order_step _ _ _ (inv_reach _ _ _ R) IH E)].
  split; [exists []; reflexivity|]. discriminate.
Qed.
Lemma order_lemma n allowed x : rreachable n allowed x -> exists later, typed (history x) = commands (history x) ++ later.
Proof. intro R. exact (proj1 (order_reach _ _ _ R)). Qed.

(** ** Without other requests *)
Definition unread (p : tpc) : nat := match p with TRead | TLine _ | TPush _ => 1 | _ => 0 end.
Definition balanced (x : rstate) : Prop :=
  thread x <> TBroken /\
  value x + unread (thread x) + List.length (queue x) = number_of waits (readers x) /\
  calls (history x) = List.length (commands (history x)) + number_of waits (readers x) + number_of wants (readers x) /\
  begun (history x) + value x + number_of wants (readers x) = calls (history x).
Lemma waits_idle x : inv x -> owner x <> OLive -> number_of waits (readers x) = 0.
Proof.
  intros (_ & _ & _ & _ & I5 & _) N. specialize (I5 N). pose proof (number_le waits (fun p => if idle p then 0 else 1) (readers x)) as G. assert (forall p, waits p <= (if idle p then 0 else 1)) as G' by (intros []; cbn; lia). specialize (G G'). lia.
Qed.
Lemma balanced_step x a x' : inv x -> balanced x -> plain a -> rstep x a = Some x' -> balanced x'.
Proof.
  intros I B A E. pose proof (waits_idle _ I) as WI.
  assert (exists_queue x = false -> owner x <> OLive) as NL by (destruct I as (_ & I2 & _); rewrite I2; intros Q O; rewrite O in Q; discriminate Q).
  assert (is_set x = false -> owner x <> OLive) as NS by (destruct I as (_ & _ & I3 & _); rewrite I3; intros Q O; rewrite O in Q; discriminate Q).
  assert (owner x = OBuild -> queue x = []) as QB by (destruct I as (_ & _ & _ & _ & _ & _ & I7 & _); intro Q; apply I7; exact Q).
  assert (thread x = TCount -> 1 <= List.length (queue x)) as QC by (destruct I as (_ & _ & _ & _ & _ & _ & _ & _ & I9 & _); intro Q; rewrite Q in I9; specialize (I9 ltac:(discriminate)); cbn in I9; lia).
  clear I. crack E; try contradiction A; destruct B as (B1 & B2 & B3 & B4); unfold balanced; sf; tm; numbers; rewrite ?begun_cons, ?calls_cons, ?commands_cons, ?app_nil_r; cbn [unread] in *.
  all: try (specialize (WI (NL eq_refl)); lia). all: try (specialize (WI (NS eq_refl)); lia).
  all: repeat match goal with |- _ /\ _ => split end; try discriminate; try assumption; rewrite ?app_length; cbn [List.length] in *; repeat match goal with H : queue _ = _ |- _ => rewrite H in * end; cbn [List.length] in *; try lia.
  rewrite QB in * by reflexivity. exact B2.
Qed.
Lemma balanced_reach n x : rreachable n plain x -> balanced x.
Proof.
  induction 1 as [|x a x' R IH A E]; [|exact (balanced_step _ _ _ (inv_reach _ _ _ R) IH A E)].
  unfold balanced, rinit; sf. rewrite !number_repeat by reflexivity. cbn. repeat split; discriminate.
Qed.
Lemma all_idle_number x : all_idle x -> number_of waits (readers x) = 0 /\ number_of wants (readers x) = 0.
Proof. intro A. split; apply number_zero; intros i p H; rewrite (A _ _ H); reflexivity. Qed.
Lemma number_idle x : number_of (fun p => if idle p then 0 else 1) (readers x) = 0 -> all_idle x.
Proof. intros Z t p H. rewrite number_zero in Z. specialize (Z _ _ H). destruct p; try discriminate Z. reflexivity. Qed.

Lemma ahead_lemma n x : rreachable n plain x -> begun (history x) <= calls (history x) /\
  (all_idle x -> exists_queue x = true -> typed (history x) = commands (history x) /\ begun (history x) = List.length (commands (history x)) /\ thread x <> TRead).
Proof.
  intro R. pose proof (balanced_reach _ _ R) as (B1 & B2 & B3 & B4). split; [lia|]. intros A Q.
  destruct (all_idle_number _ A) as [W1 W2]. rewrite W1, W2 in *. destruct (order_reach _ _ _ R) as [_ O]. destruct (O Q) as [_ O2].
  assert (thread x <> TRead) as NR by (intro T; rewrite T in B2; cbn in B2; lia).
  destruct (queue x); [|cbn in B2; lia]. assert (pending (thread x) = []) as P by (destruct (thread x); cbn in *; try reflexivity; lia). rewrite P in O2. rewrite !app_nil_r in O2.
  repeat split; [exact O2|lia|exact NR].
Qed.

Lemma safe_lemma n x : rreachable n plain x -> ~ In VDangling (history x).
Proof.
  induction 1 as [|x a x' R IH A E]; [intros []|].
  assert (rreachable n plain x') as R' by (eapply rr_step; eassumption). destruct (balanced_reach _ _ R') as (B1 & _). clear R'.
  crack E; cbn [In]; try exact IH; try (intros [Q|Q]; [discriminate Q|exact (IH Q)]); congruence.
Qed.

(** ** Progress *)
Definition thread_work (p : tpc) : nat := match p with TRead | TEnded | TBroken => 0 | TWait => 1 | TRet => 2 | TCount => 3 | TPush _ => 4 | TLine _ => 5 end.
Definition owner_work (p : opc) : nat := match p with OLive | OGone => 0 | OBuild => 1 | OJoin => 1 | ODisable => 2 | OClear => 3 | ODrop => 4 end.
Definition reader_work (p : rpc) : nat := match p with RIdle => 0 | RTake => 1 | RConsume => 2 | RMore => 3 end.
Definition work (x : rstate) : nat := thread_work (thread x) + owner_work (owner x) + number_of reader_work (readers x).
Lemma work_step x a x' : own_step a -> rstep x a = Some x' -> work x' < work x.
Proof.
  intros O E. crack E; try contradiction O; unfold work; sf; tm; cbn [thread_work owner_work]; try lia.
  all: match goal with H : nth_error (readers ?x) ?t = Some _ |- context [upd (readers ?x) ?t ?q] => pose proof (number_upd reader_work _ _ q _ H) as G; cbn [reader_work] in G; lia end.
Qed.
Lemma work_steps ls : forall x x', Forall own_step ls -> rsteps x ls = Some x' -> List.length ls + work x' <= work x.
Proof.
  induction ls as [|a ls IH]; intros x x' F E; cbn [rsteps List.length] in *; [injection E as <-; lia|].
  destruct (rstep x a) as [y|] eqn:E1; [|discriminate E]. inversion F as [|? ? F1 F2]; subst.
  pose proof (work_step _ _ _ F1 E1). specialize (IH _ _ F2 E). lia.
Qed.
Lemma own_plain a : own_step a -> plain a. Proof. destruct a; cbn; tauto. Qed.
Lemma reach_steps n allowed x ls : rreachable n allowed x -> Forall allowed ls -> forall x', rsteps x ls = Some x' -> rreachable n allowed x'.
Proof.
  intros R F. revert x R. induction F as [|a ls A F IH]; intros x R x' E; cbn [rsteps] in E; [injection E as <-; exact R|].
  destruct (rstep x a) as [y|] eqn:E1; [|discriminate E]. exact (IH y (rr_step _ _ _ _ _ R A E1) x' E).
Qed.

Lemma ended_reach n allowed x : rreachable n allowed x -> thread x = TEnded -> enabled x = false.
Proof.
  induction 1 as [|x a x' R IH A E]; [discriminate|]. intro T. crack E; try discriminate T; try exact (IH T); try reflexivity; try congruence.
  exact (IH eq_refl).
Qed.
Lemma rest_lemma n x : rreachable n plain x -> at_rest x -> thread x = TRead \/ (all_idle x /\ (owner x = OLive \/ owner x = OGone)).
Proof.
  intros R N. pose proof (inv_reach _ _ _ R) as (I1 & I2 & I3 & I4 & I5 & I6 & I7 & I8 & I9 & I10). pose proof (balanced_reach _ _ R) as (B1 & B2 & B3 & B4).
  pose proof (N Thread Logic.I) as NT. pose proof (N Owner Logic.I) as NO. cbn [rstep] in NT, NO. unfold thread_step in NT. unfold owner_step in NO.
  destruct (thread x) eqn:T; try discriminate NT; try congruence; [|left; reflexivity| | | |]; right.
  - cbn [holding] in I1. cbn [unread counted] in *. specialize (I9 ltac:(discriminate)). destruct (enabled x) eqn:En; [|discriminate NT]. destruct (value x) eqn:V; [|discriminate NT].
    assert (owner x = OLive) as OL by (destruct (owner x); rewrite ?I1 in NO; try discriminate NO; try reflexivity; discriminate I4).
    split; [|left; exact OL]. intros t p H. pose proof (N (Run t) Logic.I) as NR. cbn [rstep] in NR. rewrite H in NR. unfold read_step in NR.
    destruct p; [reflexivity|discriminate NR| |].
    + destruct (ready x) eqn:Rd; [|discriminate NR]. exfalso. pose proof (number_ge waits _ _ _ H) as G. cbn [waits] in G.
      assert (exists u, nth_error (readers x) u = Some RTake) as [u Hu].
      { assert (0 < number_of taking (readers x)) as P by lia. clear - P. induction (readers x) as [|a l IH]; unfold number_of in *; cbn in P; [lia|]. destruct a; cbn in P; try (destruct (IH P) as [u Hu]; exists (Datatypes.S u); exact Hu). exists 0. reflexivity. }
      pose proof (N (Run u) Logic.I) as NU. cbn [rstep] in NU. rewrite Hu in NU. unfold read_step in NU. destruct (queue x); [cbn [List.length] in *; lia|discriminate NU].
    + destruct (queue x); [|discriminate NR]. pose proof (number_ge taking _ _ _ H) as G. cbn [taking List.length] in *. lia.
  - cbn [holding] in I1. rewrite I1 in NT. destruct (is_set x); discriminate NT.
  - destruct (exists_queue x); discriminate NT.
  - destruct (exists_queue x); discriminate NT.
  - pose proof (ended_reach _ _ _ R T) as En. assert (owner x = OGone) as OG by (rewrite En in I4; destruct (owner x); try discriminate I4; try discriminate NO; reflexivity).
    split; [|right; exact OG]. apply number_idle. apply I5. rewrite OG. discriminate.
Qed.
Lemma gone_reach n allowed x : rreachable n allowed x -> owner x = OGone -> In VGone (history x).
Proof.
  induction 1 as [|x a x' R IH A E]; [discriminate|]. intro T.
  crack E; try discriminate T; try congruence; try exact (IH T); try (right; exact (IH T)); left; reflexivity.
Qed.
Lemma closing_reach n allowed x : rreachable n allowed x -> In VDestroying (history x) -> closing (owner x) = true.
Proof.
  induction 1 as [|x a x' R IH A E]; [intros []|]. intro T.
  pose proof (inv_reach _ _ _ R) as (_ & _ & _ & _ & _ & _ & I7 & _).
  crack E; try reflexivity; try (destruct T as [T|T]; [discriminate T|]); try exact (IH T); try (specialize (IH T); congruence).
Qed.
Lemma history_step x a x' e : rstep x a = Some x' -> In e (history x) -> In e (history x').
Proof. intros E I. crack E; try exact I; right; exact I. Qed.
Lemma history_steps ls : forall x x' e, rsteps x ls = Some x' -> In e (history x) -> In e (history x').
Proof.
  induction ls as [|a ls IH]; intros x x' e E I; cbn [rsteps] in E; [injection E as <-; exact I|].
  destruct (rstep x a) as [y|] eqn:E1; [|discriminate E]. exact (IH _ _ _ E (history_step _ _ _ _ E1 I)).
Qed.
Lemma own_plains ls : Forall own_step ls -> Forall plain ls.
Proof. apply Forall_impl. exact own_plain. Qed.

Lemma returns_lemma n x : rreachable n plain x -> exists bound, forall ls x', Forall own_step ls -> rsteps x ls = Some x' ->
  List.length ls <= bound /\ (at_rest x' -> thread x' = TRead \/ all_idle x') /\ (at_rest x' -> List.length (typed (history x')) = calls (history x') -> all_idle x').
Proof.
  intro R. exists (work x). intros ls x' F E. pose proof (work_steps _ _ _ F E).
  pose proof (reach_steps _ _ _ _ R (own_plains _ F) _ E) as R'. repeat split; [lia| |].
  - intro N. destruct (rest_lemma _ _ R' N) as [T|[A _]]; [left; exact T|right; exact A].
  - intros N Q. destruct (rest_lemma _ _ R' N) as [T|[A _]]; [|exact A]. exfalso.
    pose proof (balanced_reach _ _ R') as (B1 & B2 & B3 & B4). rewrite T in B2. cbn [unread] in B2.
    pose proof (inv_reach _ _ _ R') as I. assert (owner x' = OLive) as OL.
    { pose proof (waits_idle _ I) as WI. destruct (owner x'); try reflexivity; specialize (WI ltac:(discriminate)); lia. }
    destruct (order_reach _ _ _ R') as [_ O]. assert (exists_queue x' = true) as Ex by (destruct I as (_ & I2 & _); rewrite I2, OL; reflexivity).
    destruct (O Ex) as [_ O2]. rewrite T, app_nil_r in O2. rewrite O2, app_length in Q. lia.
Qed.
Lemma destroy_lemma n x : rreachable n plain x -> In VDestroying (history x) -> exists bound, forall ls x', Forall own_step ls -> rsteps x ls = Some x' ->
  List.length ls <= bound /\ (at_rest x' -> In VGone (history x')).
Proof.
  intros R D. exists (work x). intros ls x' F E. pose proof (work_steps _ _ _ F E).
  pose proof (reach_steps _ _ _ _ R (own_plains _ F) _ E) as R'. split; [lia|]. intro N.
  pose proof (closing_reach _ _ _ R' (history_steps _ _ _ _ E D)) as C.
  destruct (rest_lemma _ _ R' N) as [T|[_ [A|A]]]; [| |exact (gone_reach _ _ _ R' A)].
  - exfalso. pose proof (balanced_reach _ _ R') as (B1 & B2 & B3 & B4). rewrite T in B2. cbn [unread] in B2.
    pose proof (waits_idle _ (inv_reach _ _ _ R')) as WI. specialize (WI ltac:(intro OL; rewrite OL in C; discriminate C)). lia.
  - rewrite A in C. discriminate C.
Qed.
Lemma waits_lemma x : thread x = TRead -> ~ In VGone (history x) -> stuck_until_typed x.
Proof.
  intros T G ls. revert x T G. induction ls as [|a ls IH]; intros x T G x' NI E; cbn [rsteps] in E; [injection E as <-; exact G|].
  destruct (rstep x a) as [y|] eqn:E1; [|discriminate E].
  assert (forall l, a <> Typed l) as NA by (intros l ->; apply (NI l); left; reflexivity).
  apply (IH y); [| |intros l I; apply (NI l); right; exact I|exact E]; clear IH E NI.
  - crack E1; try congruence; try reflexivity. exfalso. eapply NA. reflexivity.
  - crack E1; try assumption; try congruence; intros [Q|Q]; try discriminate Q; contradiction.
Qed.
Lemma answers_lemma n allowed x t p : rreachable n allowed x -> nth_error (readers x) t = Some p -> calls_by t (history x) = commands_by t (history x) + (if idle p then 0 else 1).
Proof.
  intro R. revert p. induction R as [|x a x' R IH A E]; intros p H.
  { unfold rinit in H; sf. apply nth_error_In in H. apply repeat_spec in H. subst p. reflexivity. }
  crack E; unfold calls_by, commands_by in *; cbn [filter] in *; try exact (IH _ H).
  all: match goal with Hu : nth_error (readers ?x) ?u = Some _ |- _ => destruct (Nat.eq_dec u t) as [->|D];
    [pose proof (IH _ Hu) as IH1; rewrite (nth_upd_same _ _ _ _ Hu) in H; injection H as <-; rewrite ?Nat.eqb_refl; cbn [List.length idle] in *; lia
    |rewrite nth_upd_other in H by congruence; assert (Nat.eqb u t = false) as F by (apply Nat.eqb_neq; exact D); rewrite ?F; cbn [List.length]; exact (IH _ H)] end.
Qed.
