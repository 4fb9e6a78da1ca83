(** Proofs of C137. *)
From Coq Require Import Lia.
From Verif Require Import Copy_model Copy_spec.

Lemma read_holds m n : forall a bs, length bs = n -> holds m a bs -> read m a n = Some bs.
Proof.
  induction n as [|n IH]; intros a [|b bs] L Hd; cbn in L; try discriminate; [reflexivity|]. cbn.
  pose proof (Hd 0 ltac:(cbn; lia)) as X. rewrite Nat.add_0_r in X. rewrite X. cbn. rewrite (IH (S a) bs); [reflexivity|lia|].
  intros i Hi. specialize (Hd (S i) ltac:(cbn; lia)). rewrite <- plus_n_Sm in Hd. exact Hd.
Qed.
Lemma store_all_spec bs : forall m a x, store_all m a bs x = if (a <=? x) && (x <? a + length bs) then Some (nth (x - a) bs 0%N) else m x.
Proof.
  induction bs as [|b bs IH]; intros m a x; cbn [store_all length].
  - destruct (Nat.leb_spec a x), (Nat.ltb_spec x (a + 0)); cbn; try reflexivity; lia.
  - rewrite IH. unfold store. destruct (Nat.leb_spec (S a) x), (Nat.ltb_spec x (S a + length bs)), (Nat.leb_spec a x), (Nat.ltb_spec x (a + S (length bs))), (Nat.eqb_spec x a); cbn [andb]; try lia; try reflexivity.
    + replace (x - a) with (S (x - S a)) by lia. reflexivity.
    + replace (x - a) with 0 by lia. reflexivity.
Qed.

Lemma copy_lemma malloc junk m source bytes a : gives_free_memory malloc -> holds m source bytes -> malloc m (length bytes) = Some a ->
  exists m', copy_to_void_ptr malloc junk m source (length bytes) = Ret (a, m') /\ holds m' a bytes /\
  (forall x, ~ (a <= x < a + length bytes) -> m' x = m x) /\ (forall i j, i < length bytes -> j < length bytes -> source + i <> a + j).
Proof.
  intros G Hd M. unfold copy_to_void_ptr. rewrite M.
  assert (F : forall i j, i < length bytes -> j < length bytes -> source + i <> a + j).
  { intros i j I J E. specialize (Hd i I). rewrite E in Hd. rewrite (G _ _ _ M) in Hd by lia. discriminate. }
  rewrite (read_holds _ (length bytes) source bytes); [|reflexivity|].
  - eexists. split; [reflexivity|]. split; [|split; [|exact F]].
    + intros i I. rewrite store_all_spec. destruct (Nat.leb_spec a (a + i)), (Nat.ltb_spec (a + i) (a + length bytes)); try lia. cbn. replace (a + i - a) with i by lia. reflexivity.
    + intros x X. rewrite store_all_spec. unfold allocate. destruct (Nat.leb_spec a x), (Nat.ltb_spec x (a + length bytes)); cbn; try reflexivity; lia.
  - intros i I. unfold allocate. rewrite Hd by exact I. destruct (Nat.leb_spec a (source + i)), (Nat.ltb_spec (source + i) (a + length bytes)); cbn; try reflexivity.
    exfalso. apply (F i (source + i - a)); lia.
Qed.

(** writes elsewhere *)
Lemma independent_lemma m a bytes x b : holds m a bytes -> ~ (a <= x < a + length bytes) -> holds (store m x b) a bytes.
Proof. intros Hd X i I. unfold store. destruct (Nat.eqb_spec (a + i) x); [lia|]. apply Hd. exact I. Qed.
