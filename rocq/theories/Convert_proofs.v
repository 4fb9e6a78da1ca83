(** Proofs of C131. *)
From Coq Require Import List Bool Arith Lia Permutation Sorting.Sorted.
From Verif Require Import Convert_model Convert_spec.

Section Order.
Context {Key : Type} (ltb : Key -> Key -> bool).
Hypothesis W : weak_order ltb.

Lemma insert_in k l x : In x (set_insert ltb k l) -> x = k \/ In x l.
Proof.
  induction l as [|y l IH]; cbn [set_insert]; [intros [<-|[]]; auto|]. destruct (ltb k y); [intros [<-|H]; auto|]. destruct (ltb y k); [|auto].
  intros [<-|H]; [right; left; reflexivity|]. destruct (IH H) as [->|X]; [auto|right; right; exact X].
Qed.
Lemma insert_keeps k l x : In x l -> In x (set_insert ltb k l).
Proof.
  induction l as [|y l IH]; [intros []|]. intros H. cbn [set_insert]. destruct (ltb k y); [right; exact H|]. destruct (ltb y k); [|exact H].
  destruct H as [->|H]; [left; reflexivity|right; exact (IH H)].
Qed.
Lemma insert_has k l : exists x, In x (set_insert ltb k l) /\ equivalent ltb x k.
Proof.
  destruct W as (Ir & _ & _). induction l as [|y l (x & IH & E)]; cbn [set_insert].
  - exists k. split; [left; reflexivity|split; apply Ir].
  - destruct (ltb k y) eqn:E1; [exists k; split; [left; reflexivity|split; apply Ir]|]. destruct (ltb y k) eqn:E2.
    + exists x. split; [right; exact IH|exact E].
    + exists y. split; [left; reflexivity|split; assumption].
Qed.
Lemma insert_sorted k l : in_order ltb l -> in_order ltb (set_insert ltb k l).
Proof.
  destruct W as (_ & Tr & _). unfold in_order. induction l as [|y l IH]; intros H; cbn [set_insert]; [constructor; constructor|]. inversion H as [|? ? H1 H2]; subst.
  destruct (ltb k y) eqn:E1.
  - constructor; [exact H|]. constructor; [exact E1|]. eapply Forall_impl; [|exact H2]. intros z Hz. exact (Tr _ _ _ E1 Hz).
  - destruct (ltb y k) eqn:E2; [|exact H]. constructor; [exact (IH H1)|]. apply Forall_forall. intros z Hz. destruct (insert_in _ _ _ Hz) as [->|Hz']; [exact E2|].
    rewrite Forall_forall in H2. exact (H2 z Hz').
Qed.

Lemma keys_gen {Value} (m : list (Key * Value)) : forall acc, in_order ltb acc ->
  let r := fold_left (fun ret elem => set_insert ltb (fst elem) ret) m acc in
  in_order ltb r /\ (forall x, In x r -> In x acc \/ In x (map fst m)) /\ (forall x, In x acc -> In x r) /\
  (forall k, In k (map fst m) -> exists x, In x r /\ equivalent ltb x k).
Proof.
  induction m as [|[k v] m IH]; intros acc S; cbn [fold_left map fst]; [repeat split; auto; intros k []|].
  destruct (IH (set_insert ltb k acc) (insert_sorted _ _ S)) as (I1 & I2 & I3 & I4). split; [exact I1|]. split; [|split].
  - intros x Hx. destruct (I2 x Hx) as [H|H]; [destruct (insert_in _ _ _ H) as [->|X]; [right; left; reflexivity|left; exact X]|right; right; exact H].
  - intros x Hx. apply I3. apply insert_keeps. exact Hx.
  - intros k' [<-|H]; [|exact (I4 k' H)]. destruct (insert_has k acc) as (x & X1 & X2). exists x. split; [exact (I3 x X1)|exact X2].
Qed.

Lemma keys_lemma {Value} (m : list (Key * Value)) : in_order ltb (get_keys ltb m) /\ (forall x, In x (get_keys ltb m) -> In x (map fst m)) /\
  (forall k, In k (map fst m) -> exists x, In x (get_keys ltb m) /\ equivalent ltb x k).
Proof.
  destruct (keys_gen m [] (SSorted_nil _)) as (I1 & I2 & _ & I4). split; [exact I1|]. split; [|exact I4]. intros x Hx. destruct (I2 x Hx) as [[]|H]. exact H.
Qed.

Lemma sorted_nodup l : in_order ltb l -> NoDup l.
Proof.
  destruct W as (Ir & _ & _). induction 1 as [|x l H IH F]; [constructor|]. constructor; [|exact IH]. intros X. rewrite Forall_forall in F. specialize (F x X). rewrite Ir in F. discriminate.
Qed.

Lemma exact_keys_lemma {Value} (m : list (Key * Value)) : exact_order ltb -> NoDup (map fst m) -> Permutation (get_keys ltb m) (map fst m).
Proof.
  intros X N. destruct (keys_lemma m) as (I1 & I2 & I3). apply NoDup_Permutation; [exact (sorted_nodup _ I1)|exact N|]. intros k. split; [apply I2|].
  intros H. destruct (I3 k H) as (x & Hx & E). rewrite <- (X _ _ E). exact Hx.
Qed.
End Order.

Lemma nat_weak : weak_order Nat.ltb.
Proof.
  split; [exact Nat.ltb_irrefl|]. split; [intros x y z H1 H2; apply Nat.ltb_lt in H1, H2; apply Nat.ltb_lt; lia|].
  intros x y z H1 H2 H3 H4. apply Nat.ltb_ge in H1, H2, H3, H4. split; apply Nat.ltb_ge; lia.
Qed.
Lemma nat_exact : exact_order Nat.ltb.
Proof. intros x y [H1 H2]. apply Nat.ltb_ge in H1, H2. lia. Qed.

Lemma object_in {Child} (h : heap Child) a x : object h a = Some x -> In a (map fst h).
Proof. induction h as [|[b y] h IH]; cbn [object map fst]; [discriminate|]. destruct (Nat.eqb_spec a b) as [->|D]; [left; reflexivity|right; auto]. Qed.

Lemma insert_new a l : ~ In a l -> Permutation (set_insert Nat.ltb a l) (a :: l).
Proof.
  induction l as [|y l IH]; intros N; cbn [set_insert]; [reflexivity|]. destruct (Nat.ltb_spec a y); [reflexivity|]. destruct (Nat.ltb_spec y a).
  - rewrite IH by (intros X; apply N; right; exact X). apply perm_swap.
  - exfalso. apply N. left. lia.
Qed.

Lemma convert_gen {Child} (fresh : heap Child -> nat) : allocator fresh -> forall set h result, in_order Nat.ltb result -> (forall a, In a result -> In a (map fst h)) ->
  let (h', result') := convert_set_to_shared fresh set h result in
  in_order Nat.ltb result' /\ (forall a x, object h a = Some x -> object h' a = Some x) /\
  exists news, Permutation result' (news ++ result) /\ map (object h') news = map Some set /\ forall a, In a news -> object h a = None.
Proof.
  intros A. induction set as [|e set IH]; intros h result S R; cbn [convert_set_to_shared].
  { split; [exact S|]. split; [auto|]. exists []. repeat split; auto. intros a []. }
  set (a := fresh h). assert (Na : ~ In a (map fst h)) by apply A.
  specialize (IH ((a, e) :: h) (set_insert Nat.ltb a result) (insert_sorted _ nat_weak _ _ S)).
  destruct (convert_set_to_shared fresh set ((a, e) :: h) (set_insert Nat.ltb a result)) as [h' result'].
  destruct IH as (I1 & I2 & news & I3 & I4 & I5).
  { intros b Hb. cbn [map fst]. destruct (insert_in _ _ _ _ Hb) as [->|X]; [left; reflexivity|right; exact (R b X)]. }
  assert (Old : forall b x, object h b = Some x -> object h' b = Some x).
  { intros b x Hb. apply I2. cbn [object]. destruct (Nat.eqb_spec b a) as [->|D]; [exfalso; exact (Na (object_in _ _ _ Hb))|exact Hb]. }
  split; [exact I1|]. split; [exact Old|]. exists (a :: news). split; [|split].
  - rewrite I3. rewrite (insert_new a result) by (intros X; exact (Na (R a X))). cbn [app]. symmetry. apply Permutation_middle.
  - cbn [map]. rewrite I4. f_equal. apply I2. cbn [object]. rewrite Nat.eqb_refl. reflexivity.
  - intros b [<-|Hb].
    + destruct (object h a) as [x|] eqn:E; [exfalso; exact (Na (object_in _ _ _ E))|reflexivity].
    + specialize (I5 b Hb). cbn [object] in I5. destruct (Nat.eqb b a); [discriminate|exact I5].
Qed.

Lemma convert_lemma : forall (Child : Type) (fresh : heap Child -> nat) set h h' result, allocator fresh -> convert_set_to_shared fresh set h [] = (h', result) ->
  in_order Nat.ltb result /\ length result = length set /\ Permutation (map (object h') result) (map Some set) /\
  (forall a x, object h a = Some x -> object h' a = Some x /\ ~ In a result).
Proof.
  intros Child fresh set h h' result A E. pose proof (convert_gen fresh A set h [] (SSorted_nil _) (fun a (H : In a []) => match H with end)) as G. rewrite E in G.
  destruct G as (G1 & G2 & news & G3 & G4 & G5). rewrite app_nil_r in G3. split; [exact G1|].
  assert (P : Permutation (map (object h') result) (map Some set)) by (rewrite <- G4; apply Permutation_map; exact G3).
  split; [apply Permutation_length in P; rewrite !map_length in P; exact P|]. split; [exact P|]. intros a x Ha. split; [exact (G2 a x Ha)|].
  intros X. rewrite G3 in X. rewrite (G5 a X) in Ha. discriminate.
Qed.
