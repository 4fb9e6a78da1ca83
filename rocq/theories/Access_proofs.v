(** Proofs of C136. *)
From Coq Require Import Lia.
From Verif Require Import Access_model Access_spec.
Local Open Scope Z_scope.

Definition bit (r : right) : Z := match r with RightRead => 2 | RightWrite => 1 | RightExec => 0 end.

Lemma all_of_bits ms : forall a, 0 <= a <= 7 -> let z := fold_left (fun a m => mode_or a (value m)) ms a in
  0 <= z <= 7 /\ forall r, Z.testbit z (bit r) = true <-> (Z.testbit a (bit r) = true \/ exists m, In m ms /\ asks m r).
Proof.
  induction ms as [|m ms IH]; intros a A; cbn zeta; cbn [fold_left].
  - split; [exact A|]. intros r. split; [auto|]. intros [X|(m & [] & _)]. exact X.
  - assert (B : 0 <= mode_or a (value m) <= 7).
    { assert (C : a = 0 \/ a = 1 \/ a = 2 \/ a = 3 \/ a = 4 \/ a = 5 \/ a = 6 \/ a = 7) by lia. destruct C as [->|[->|[->|[->|[->|[->|[->| ->]]]]]]]; destruct m; vm_compute; split; discriminate. }
    destruct (IH _ B) as [R E]. split; [exact R|]. intros r. rewrite E. unfold mode_or. rewrite Z.lor_spec, orb_true_iff.
    assert (V : Z.testbit (value m) (bit r) = true <-> asks m r) by (destruct m, r; vm_compute; split; auto; try discriminate; contradiction).
    rewrite V. split.
    + intros [[X|X]|(m' & I & X)]; [auto|right; exists m; cbn; auto|right; exists m'; cbn; auto].
    + intros [X|(m' & [<-|I] & X)]; [auto|auto|right; exists m'; auto].
Qed.

Lemma accessible_lemma file ms : is_file_accessible file (all_of ms) = true <->
  exists p, file = Some p /\ forall m r, In m ms -> asks m r -> granted p r = true.
Proof.
  unfold all_of. destruct (all_of_bits ms exist ltac:(unfold exist; lia)) as [R E]. cbn zeta in R, E. set (z := fold_left _ ms exist) in *.
  assert (E' : forall r, Z.testbit z (bit r) = true <-> exists m, In m ms /\ asks m r).
  { intros r. rewrite E. unfold exist. rewrite Z.testbit_0_l. split; [intros [X|X]; [discriminate|exact X]|auto]. }
  unfold is_file_accessible, access. destruct file as [p|]; [|cbn; split; [discriminate|intros (p & X & _); discriminate]].
  replace ((z <? 0) || (7 <? z)) with false by (symmetry; apply orb_false_iff; split; apply Z.ltb_ge; lia).
  assert (G : forall r, (Z.testbit z (bit r) && negb (granted p r) = false) <-> (forall m, In m ms -> asks m r -> granted p r = true)).
  { intros r. destruct (granted p r) eqn:Gr; cbn [negb]; [rewrite andb_false_r; split; auto|]. rewrite andb_true_r. split.
    - intros X m I A. exfalso. assert (Y : Z.testbit z (bit r) = true) by (apply E'; eauto). congruence.
    - intros X. destruct (Z.testbit z (bit r)) eqn:T; [|reflexivity]. apply E' in T as (m & I & A). specialize (X m I A). discriminate. }
  pose proof (G RightRead) as G1. pose proof (G RightWrite) as G2. pose proof (G RightExec) as G3. cbn [bit granted] in G1, G2, G3.
  destruct (Z.testbit z 2 && negb (may_read p)) eqn:B1; cbn [orb].
  { split; [discriminate|]. intros (q & [= <-] & X). assert (Y : true = false) by (apply G1; intros m I A; apply (X m RightRead I A)). discriminate. }
  destruct (Z.testbit z 1 && negb (may_write p)) eqn:B2; cbn [orb].
  { split; [discriminate|]. intros (q & [= <-] & X). assert (Y : true = false) by (apply G2; intros m I A; apply (X m RightWrite I A)). discriminate. }
  destruct (Z.testbit z 0 && negb (may_exec p)) eqn:B3; cbn [orb].
  { split; [discriminate|]. intros (q & [= <-] & X). assert (Y : true = false) by (apply G3; intros m I A; apply (X m RightExec I A)). discriminate. }
  split; [|reflexivity]. intros _. exists p. split; [reflexivity|]. intros m [| |] I A; [apply (proj1 G1 eq_refl m I A)|apply (proj1 G2 eq_refl m I A)|apply (proj1 G3 eq_refl m I A)].
Qed.

Lemma contains_lemma ms m : mode_and (all_of ms) (value m) = value m <-> forall r, asks m r -> exists m', In m' ms /\ asks m' r.
Proof.
  unfold all_of. destruct (all_of_bits ms exist ltac:(unfold exist; lia)) as [R E]. cbn zeta in R, E. set (z := fold_left _ ms exist) in *.
  assert (E' : forall r, Z.testbit z (bit r) = true <-> exists m, In m ms /\ asks m r).
  { intros r. rewrite E. unfold exist. rewrite Z.testbit_0_l. split; [intros [X|X]; [discriminate|exact X]|auto]. }
  assert (V : forall r, Z.testbit (value m) (bit r) = true <-> asks m r) by (intros r; destruct m, r; vm_compute; split; auto; try discriminate; contradiction).
  unfold mode_and. split.
  - intros X r A. apply E'. apply V in A. rewrite <- X, Z.land_spec in A. apply andb_prop in A. apply A.
  - intros X. assert (Y : forall r, Z.testbit (value m) (bit r) = true -> Z.testbit z (bit r) = true) by (intros r A; apply E', X, V, A).
    pose proof (Y RightRead) as Y1. pose proof (Y RightWrite) as Y2. pose proof (Y RightExec) as Y3. cbn [bit] in *.
    assert (C : z = 0 \/ z = 1 \/ z = 2 \/ z = 3 \/ z = 4 \/ z = 5 \/ z = 6 \/ z = 7) by lia.
    clear -C Y1 Y2 Y3. destruct C as [C|[C|[C|[C|[C|[C|[C|C]]]]]]]; rewrite C in *; destruct m; cbn in *; try reflexivity;
      first [specialize (Y1 eq_refl); discriminate|specialize (Y2 eq_refl); discriminate|specialize (Y3 eq_refl); discriminate].
Qed.
