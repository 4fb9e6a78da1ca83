From Verif Require Import ObjPool_model ObjPool_spec.
From Coq Require Import Permutation Arith Lia ZifyN ZifyNat ZifyBool.

Section Proofs.
Variable T : Type.
Variable made : T.
Variable cleared : T -> T.
Notation history := (history made cleared).
Notation as_new := (as_new made cleared).

Lemma iter_S {A} (f : A -> A) n x : Nat.iter (S n) f x = f (Nat.iter n f x).
Proof. reflexivity. Qed.

Lemma iter_more n (p : pool T) :
  let p' := Nat.iter n (one_more made) p in
  reserved p' = reserved p /\ fresh p' = fresh p + n /\ conf p' = conf p /\ kind p' = kind p /\
  elements p' = rev (seq (fresh p) n) ++ elements p /\
  (forall e, e < fresh p -> contents p' e = contents p e) /\ (forall e, fresh p <= e < fresh p + n -> contents p' e = made).
Proof.
  induction n as [|n IH]; intros p'.
  - cbn. repeat split; try lia.
  - subst p'. rewrite iter_S. set (q := Nat.iter n (one_more made) p) in *. destruct IH as (R & F & C & K & E & G & M). unfold one_more. cbn [reserved fresh conf kind elements contents].
    split; [exact R|]. split; [lia|]. split; [exact C|]. split; [exact K|]. split.
    { rewrite E, F, seq_S, rev_app_distr. reflexivity. }
    unfold write. split; intros e He; destruct (Nat.eqb_spec e (fresh q)); try lia; auto. apply M. lia.
Qed.

Lemma augment_facts (p : pool T) n :
  let p' := augment made p n in
  reserved p' = uint (reserved p + n) /\ fresh p' = fresh p + N.to_nat n /\ conf p' = conf p /\ kind p' = kind p /\
  elements p' = rev (seq (fresh p) (N.to_nat n)) ++ elements p /\
  (forall e, e < fresh p -> contents p' e = contents p e) /\ (forall e, fresh p <= e < fresh p' -> contents p' e = made).
Proof.
  intros p'. subst p'. destruct (iter_more (N.to_nat n) p) as (R & F & C & K & E & G & M). unfold augment. cbn [reserved fresh conf kind elements contents].
  split; [f_equal; lia|]. split; [exact F|]. split; [exact C|]. split; [exact K|]. split; [exact E|]. split; [exact G|]. intros e He. apply M. lia.
Qed.

Record inv (k : class) (c : config) (p : pool T) (out : list nat) : Prop := {
  i_nodup : NoDup (elements p ++ out);
  i_below : forall e, In e (elements p ++ out) -> e < fresh p;
  i_count : fresh p = length (elements p) + length out;
  i_res : reserved p = uint (N.of_nat (fresh p));
  i_conf : conf p = c;
  i_kind : kind p = k;
  i_batch : (1 <= batch_size c)%N;
  i_new : forall e, In e (elements p) -> as_new (contents p e)
}.

Lemma uint_add a b : uint (uint a + b) = uint (a + b).
Proof. unfold uint. rewrite N.add_mod_idemp_l; [reflexivity|discriminate]. Qed.

Lemma nodup_app (a b : list nat) : NoDup (a ++ b) <-> NoDup a /\ NoDup b /\ forall x, In x a -> ~ In x b.
Proof.
  induction a as [|x a IH]; cbn.
  - split; [intros H; repeat split; auto; constructor|tauto].
  - rewrite !NoDup_cons_iff, IH, in_app_iff. split.
    + intros (N & A & B & D). repeat split; auto. intros y [<-|Y]; auto.
    + intros ((N & A) & B & D). repeat split; auto. intros [H|H]; [auto|apply (D x); auto].
Qed.

Lemma inv_augment k c p out n : inv k c p out -> inv k c (augment made p n) out.
Proof.
  intros [ND B C R CO K BA NW]. destruct (augment_facts p n) as (R' & F' & C' & K' & E' & G' & M'). set (p' := augment made p n) in *.
  assert (Old : forall e, In e (elements p) -> e < fresh p) by (intros e He; apply B, in_or_app; auto).
  split.
  - rewrite E', <- app_assoc. apply nodup_app. split; [apply NoDup_rev, seq_NoDup|]. split; [exact ND|].
    intros x Hx Hy. rewrite <- in_rev, in_seq in Hx. specialize (B x Hy). lia.
  - intros e. rewrite E', <- app_assoc, in_app_iff, <- in_rev, in_seq. intros [H|H]; [lia|]. specialize (B e H). lia.
  - rewrite E', F', app_length, rev_length, seq_length. lia.
  - rewrite R', R, uint_add, F'. f_equal. lia.
  - congruence.
  - congruence.
  - exact BA.
  - intros e. rewrite E', in_app_iff, <- in_rev, in_seq. intros [H|H].
    + left. apply M'. lia.
    + rewrite G' by auto. auto.
Qed.

Lemma inv_start k c g p : construct made k c g = Ret p -> inv k c p [].
Proof.
  unfold construct. destruct (N.ltb_spec (batch_size c) 1) as [H|H]; [discriminate|]. intros E. injection E as <-.
  assert (I : inv k c {| elements := []; reserved := 0; fresh := 0; contents := g; conf := c; kind := k |} []).
  { split; cbn; auto; try easy; try constructor. }
  destruct k; [exact I|apply inv_augment; exact I].
Qed.

Lemma loan_inv k c p out : inv k c p out -> exists e p', loan made p = Ret (e, p') /\ inv k c p' (e :: out) /\ ~ In e out /\ as_new (contents p' e) /\
  (elements p <> [] -> fresh p' = fresh p) /\ (elements p = [] -> fresh p' = fresh p + N.to_nat (batch_size c)).
Proof.
  intros I. unfold loan. set (p1 := match elements p with [] => augment made p (batch_size (conf p)) | _ => p end).
  assert (I1 : inv k c p1 out) by (subst p1; destruct (elements p); [apply inv_augment|]; exact I).
  assert (F1 : (elements p <> [] -> fresh p1 = fresh p) /\ (elements p = [] -> fresh p1 = fresh p + N.to_nat (batch_size c))).
  { subst p1. destruct (elements p) eqn:E; split; intros H; try congruence. destruct (augment_facts p (batch_size (conf p))) as (_ & F & _). rewrite F, (i_conf _ _ _ _ I). reflexivity. }
  assert (N1 : elements p1 <> []).
  { subst p1. destruct (elements p) eqn:E; [|congruence]. destruct (augment_facts p (batch_size (conf p))) as (_ & _ & _ & _ & F & _).
    rewrite F, (i_conf _ _ _ _ I). pose proof (i_batch _ _ _ _ I). intros H0. apply (f_equal (@length nat)) in H0. rewrite app_length, rev_length, seq_length in H0. cbn in H0. lia. }
  clearbody p1. destruct (elements p1) as [|e es] eqn:E1; [congruence|]. exists e. eexists. split; [reflexivity|].
  destruct I1 as [ND B C R CO K BA NW]. rewrite E1 in *. cbn [app] in *. apply NoDup_cons_iff in ND. destruct ND as [NI ND].
  split; [|split; [|split; [|exact F1]]].
  - split; cbn [elements reserved fresh contents conf kind]; auto.
    + apply nodup_app in ND. destruct ND as (A & O & D). apply nodup_app. split; [exact A|]. rewrite in_app_iff in NI. split; [constructor; auto|].
      intros x Hx [<-|Hy]; [auto|]. apply (D x); auto.
    + intros x. rewrite in_app_iff. cbn. intros Hx. apply B. cbn. rewrite in_app_iff. tauto.
    + cbn in C |- *. lia.
    + intros x Hx. apply NW. right. exact Hx.
  - intros H. apply NI, in_or_app. auto.
  - cbn. apply NW. left. reflexivity.
Qed.

Lemma inv_use k c p out e v : inv k c p out -> In e out -> inv k c (use p e v) out.
Proof.
  intros [ND B C R CO K BA NW] H. split; cbn; auto. intros x Hx. unfold write. destruct (Nat.eqb_spec x e); auto. subst x.
  apply nodup_app in ND. destruct ND as (_ & _ & D). destruct (D e Hx H).
Qed.

Lemma inv_return k c p out1 e out2 p' : inv k c p (out1 ++ e :: out2) -> return_loan cleared p e = Ret p' -> inv k c p' (out1 ++ out2) /\ fresh p' = fresh p.
Proof.
  intros [ND B C R CO K BA NW]. unfold return_loan. destruct (N.eqb _ _); [discriminate|]. intros E. injection E as <-. cbn [fresh]. split; [|reflexivity].
  assert (P : Permutation.Permutation (elements p ++ out1 ++ e :: out2) (e :: elements p ++ out1 ++ out2)).
  { rewrite !app_assoc. symmetry. apply Permutation.Permutation_middle. }
  split; cbn [elements reserved fresh contents conf kind]; auto.
  - eapply Permutation.Permutation_NoDup; [exact P|exact ND].
  - intros x Hx. apply B. eapply Permutation.Permutation_in; [symmetry; exact P|exact Hx].
  - rewrite C. rewrite !app_length. cbn. lia.
  - intros x Hx. unfold write. destruct (Nat.eqb_spec x e).
    + right. eexists. reflexivity.
    + destruct Hx as [Hx|Hx]; [congruence|auto].
Qed.

Lemma history_inv k c p out : history k c p out -> inv k c p out.
Proof.
  induction 1.
  - eapply inv_start; eauto.
  - destruct (loan_inv _ _ _ _ IHhistory) as (e' & p'' & L & I & _). rewrite H0 in L. injection L as <- <-. exact I.
  - apply inv_use; auto.
  - subst out. eapply inv_return; eauto.
Qed.

Lemma distinct_lemma k c p out : history k c p out -> NoDup (elements p ++ out) /\ fresh p = length (elements p) + length out.
Proof. intros H. destruct (history_inv _ _ _ _ H). auto. Qed.

Lemma loan_lemma k c p out : history k c p out -> exists e p', loan made p = Ret (e, p') /\ ~ In e out /\ as_new (contents p' e) /\
  forall x, In x out -> contents p' x = contents p x.
Proof.
  intros H. destruct (loan_inv _ _ _ _ (history_inv _ _ _ _ H)) as (e & p' & L & _ & N & A & _). exists e, p'. repeat split; auto.
  intros x Hx. unfold loan in L. pose proof (i_below _ _ _ _ (history_inv _ _ _ _ H) x (in_or_app _ _ _ (or_intror Hx))) as Bx.
  destruct (elements p) eqn:E.
  - destruct (augment_facts p (batch_size (conf p))) as (_ & _ & _ & _ & _ & G & _). destruct (elements (augment _ _ _)); [discriminate|]. injection L as <- <-. cbn. apply G. lia.
  - rewrite E in L. injection L as <- <-. reflexivity.
Qed.

Lemma uint_small n : (n < 2 ^ 32)%N -> uint n = n.
Proof. apply N.mod_small. Qed.

Lemma return_lemma k c p out e : history k c p out -> (N.of_nat (length (elements p) + length out) < 2 ^ 32)%N ->
  (In e out -> exists p', return_loan cleared p e = Ret p' /\ as_new (contents p' e) /\ forall x, x <> e -> contents p' x = contents p x) /\
  (out = [] -> return_loan cleared p e = Throw Inconsistency).
Proof.
  intros H S. destruct (history_inv _ _ _ _ H) as [ND B C R CO K BA NW]. unfold return_loan. rewrite R, uint_small by (rewrite C; exact S). split.
  - intros I. destruct (N.eqb_spec (N.of_nat (fresh p)) (N.of_nat (length (elements p)))) as [E|E].
    + destruct out; [destruct I|]. cbn in C. lia.
    + eexists. split; [reflexivity|]. cbn. unfold write. rewrite Nat.eqb_refl. split; [right; eexists; reflexivity|]. intros x Hx. destruct (Nat.eqb_spec x e); congruence.
  - intros ->. cbn in C. destruct (N.eqb_spec (N.of_nat (fresh p)) (N.of_nat (length (elements p)))) as [E|E]; [reflexivity|lia].
Qed.

Lemma peak_inv k c p out m : peak_history made cleared k c p out m -> history k c p out /\ length out <= m /\
  fresh p <= Nat.max (match k with Base => 0 | Child => N.to_nat (initial_size c) end) (m + N.to_nat (batch_size c) - 1).
Proof.
  induction 1 as [g p E|p out m e p' H (IH & L & F) E|p out m e v H (IH & L & F) E|p out m out1 e out2 p' H (IH & L & F) -> E].
  - split; [econstructor; eauto|]. split; [apply Nat.le_refl|]. unfold construct in E. destruct (N.ltb _ _); [discriminate|]. injection E as <-. destruct k; [cbn; lia|].
    match goal with |- context [augment made ?q ?n] => destruct (augment_facts q n) as (_ & F & _) end. rewrite F. cbn. lia.
  - split; [econstructor; eauto|]. split; [cbn; lia|]. pose proof (history_inv _ _ _ _ IH) as I. destruct (loan_inv _ _ _ _ I) as (e' & p'' & L' & _ & _ & _ & F1 & F2).
    rewrite E in L'. injection L' as <- <-. destruct (elements p) eqn:El.
    + rewrite F2 by reflexivity. rewrite (i_count _ _ _ _ I), El. pose proof (i_batch _ _ _ _ I). cbn [length]. lia.
    + rewrite F1 by discriminate. lia.
  - split; [econstructor; eauto|]. auto.
  - split; [econstructor; eauto|]. split; [rewrite app_length in *; cbn in *; lia|]. destruct (inv_return _ _ _ _ _ _ _ (history_inv _ _ _ _ IH) E) as [_ G]. rewrite G. exact F.
Qed.

Lemma destroy_lemma k c p : history k c p [] -> Permutation.Permutation (map fst (destroy p)) (seq 0 (fresh p)).
Proof.
  intros H. destruct (history_inv _ _ _ _ H) as [ND B C R CO K BA NW]. rewrite app_nil_r in *. unfold destroy. rewrite map_map. cbn [fst]. rewrite map_id.
  apply Permutation.NoDup_Permutation_bis.
  - apply NoDup_rev. exact ND.
  - rewrite seq_length, rev_length. cbn in C. lia.
  - intros x. rewrite <- in_rev, in_seq. intros Hx. specialize (B x Hx). lia.
Qed.
End Proofs.

(** A double return *)

Lemma double_refute : exists (p p1 p2 p3 p4 : pool nat) e e', history 0 (fun _ => 0) Child (small 2 1) p [e; e'] /\
  return_loan (fun _ => 0) p e = Ret p1 /\ return_loan (fun _ => 0) p1 e = Ret p2 /\ loan 0 p2 = Ret (e, p3) /\ loan 0 p3 = Ret (e, p4).
Proof.
  destruct (construct 0 Child (small 2 1) (fun _ => 7)) as [p0| | | |] eqn:E0; try (vm_compute in E0; discriminate).
  destruct (loan 0 p0) as [[a p]| | | |] eqn:E1; try (vm_compute in E0; injection E0 as <-; vm_compute in E1; discriminate).
  destruct (loan 0 p) as [[a' p']| | | |] eqn:E2; try (vm_compute in E0; injection E0 as <-; vm_compute in E1; injection E1 as <- <-; vm_compute in E2; discriminate).
  assert (H : history 0 (fun _ => 0) Child (small 2 1) p' [a'; a]) by (repeat (eapply h_loan; [|eassumption]); eapply h_start; eauto).
  vm_compute in E0. injection E0 as <-. vm_compute in E1. injection E1 as <- <-. vm_compute in E2. injection E2 as <- <-.
  do 5 eexists. exists 0, 1. split; [exact H|]. repeat split.
Qed.

(** The count wraps *)
Lemma loan_some (p : pool nat) e es : elements p = e :: es ->
  loan 0 p = Ret (e, {| elements := es; reserved := reserved p; fresh := fresh p; contents := contents p; conf := conf p; kind := kind p |}).
Proof. intros E. unfold loan. rewrite E, E. reflexivity. Qed.

Lemma loan_all c (f : nat -> nat) : forall es (p : pool nat) out, elements p = es -> history 0 f Child c p out ->
  exists p', history 0 f Child c p' (rev es ++ out) /\ elements p' = [] /\ reserved p' = reserved p.
Proof.
  induction es as [|e es IH]; intros p out E H.
  - exists p. auto.
  - pose proof (loan_some p e es E) as L. pose proof (h_loan _ _ _ _ _ _ _ _ _ H L) as H1.
    match type of L with _ = Ret (_, ?q) => assert (Eq : elements q = es) by reflexivity end. destruct (IH _ (e :: out) Eq H1) as (p' & H' & E' & R').
    exists p'. cbn [rev]. rewrite <- app_assoc. cbn. split; [exact H'|]. split; [exact E'|]. rewrite R'. reflexivity.
Qed.

Lemma wrap_gen b : (1 <= b)%N -> uint (1 + b) = 0%N -> exists (p : pool nat) out, history 0 (fun _ => 0) Child (small 1 b) p out /\ N.of_nat (length out) = (1 + b)%N /\
  forall e, return_loan (fun _ => 0) p e = Throw Inconsistency.
Proof.
  intros B1 U. assert (Hc : batch_size (small 1 b) = b) by reflexivity. assert (Hi : initial_size (small 1 b) = 1%N) by reflexivity. set (c := small 1 b) in *. clearbody c.
  destruct (construct 0 Child c (fun _ => 7)) as [p0| | | |] eqn:E0; unfold construct in E0; rewrite Hc in E0; destruct (N.ltb_spec b 1) as [Q|Q]; try lia; try discriminate.
  assert (H0 : history 0 (fun _ => 0) Child c p0 []) by (apply (h_start _ _ _ _ _ (fun _ => 7)); unfold construct; rewrite Hc; destruct (N.ltb_spec b 1); [lia|exact E0]).
  assert (X0 : elements p0 = [0] /\ fresh p0 = 1) by (rewrite Hi in E0; injection E0 as <-; split; reflexivity).
  destruct X0 as (L0 & F0). pose proof (loan_some p0 0 [] L0) as L1. pose proof (h_loan _ _ _ _ _ _ _ _ _ H0 L1) as H1.
  match type of L1 with _ = Ret (_, ?q) => assert (P1 : elements q = [] /\ fresh q = 1) by (cbn; auto); set (p1 := q) in * end. clearbody p1. destruct P1 as [P1 P1'].
  pose proof (history_inv _ _ _ _ _ _ _ H1) as I1.
  destruct (loan_inv _ _ _ _ _ _ _ I1) as (e & p2 & L2 & I2 & _ & _ & _ & F2). specialize (F2 P1).
  pose proof (h_loan _ _ _ _ _ _ _ _ _ H1 L2) as H2.
  destruct (loan_all c (fun _ => 0) (elements p2) p2 [e; 0] eq_refl H2) as (p3 & H3 & E3 & R3).
  exists p3. eexists. split; [exact H3|]. rewrite P1', Hc in F2. split.
  - rewrite app_length, rev_length. pose proof (i_count _ _ _ _ _ _ _ I2) as C2. rewrite F2 in C2. cbn [length] in *. lia.
  - intros e'. unfold return_loan. rewrite R3, (i_res _ _ _ _ _ _ _ I2), F2, E3.
    replace (N.of_nat (1 + N.to_nat b)) with (1 + b)%N by lia. rewrite U. reflexivity.
Qed.
Lemma wrap_refute : exists (p : pool nat) out, history 0 (fun _ => 0) Child (small 1 4294967295) p out /\ N.of_nat (length out) = 4294967296%N /\
  forall e, return_loan (fun _ => 0) p e = Throw Inconsistency.
Proof. destruct (wrap_gen 4294967295) as (p & out & H); [discriminate|reflexivity|]. exists p, out. exact H. Qed.

Lemma leak_refute : exists (p : pool nat) e, history 0 (fun _ => 0) Child (small 2 1) p [e] /\ fresh p = 2 /\ e < fresh p /\ ~ In e (map fst (destroy p)).
Proof.
  destruct (construct 0 Child (small 2 1) (fun _ => 7)) as [p0| | | |] eqn:E0; try (vm_compute in E0; discriminate).
  destruct (loan 0 p0) as [[a p]| | | |] eqn:E1; try (vm_compute in E0; injection E0 as <-; vm_compute in E1; discriminate).
  assert (H : history 0 (fun _ => 0) Child (small 2 1) p [a]) by (repeat (eapply h_loan; [|eassumption]); eapply h_start; eauto).
  vm_compute in E0. injection E0 as <-. vm_compute in E1. injection E1 as <- <-. eexists. exists 1. split; [exact H|]. split; [reflexivity|]. split; [cbn; lia|]. cbn. lia.
Qed.

Lemma initial_refute : exists p : pool nat, construct 0 Base (small 5 1) (fun _ => 7) = Ret p /\ elements p = [] /\ fresh p = 0.
Proof. eexists. repeat split. Qed.
