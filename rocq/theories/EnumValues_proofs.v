(** Proofs of C128. *)
From Coq Require Import List ZArith Ascii Bool Arith Lia.
From Verif Require Import Builder_spec Builder_proofs EnumValues_model EnumValues_spec.
Import ListNotations.

Lemma numbered_length es : forall n, length (numbered n es) = length es.
Proof. induction es as [|e es IH]; intros n; cbn [numbered length]; [reflexivity|]. f_equal. apply IH. Qed.

Lemma numbered_plain es : forall n i, plain es -> i < length es -> nth_error (numbered n es) i = Some (n + Z.of_nat i)%Z.
Proof.
  induction es as [|e es IH]; intros n i P L; cbn [length] in L; [lia|]. cbn [numbered]. rewrite (P e (or_introl eq_refl)).
  destruct i as [|i]; [cbn; f_equal; lia|]. cbn [nth_error]. rewrite IH; [f_equal; lia| |lia]. intros x Hx. apply P. right. exact Hx.
Qed.

Lemma spelling_name es i j e f : compiles es -> nth_error es i = Some e -> nth_error es j = Some f -> spelling f = name e -> j = i /\ given f = None.
Proof.
  intros [N S] He Hf H. unfold spelling in H. destruct (given f) as [[v t]|] eqn:G.
  - exfalso. apply (S e (nth_error_In _ _ He)). rewrite <- H. apply in_or_app. right. left. reflexivity.
  - split; [|reflexivity]. assert (L : j < length (map name es)) by (rewrite map_length; apply nth_error_Some; congruence).
    apply (proj1 (NoDup_nth_error _) N); [exact L|]. rewrite !nth_error_map, He, Hf. cbn. congruence.
Qed.

Lemma to_string_spec es v t : value_to_string es v = Ret t <-> exists f, (0 <= v)%Z /\ nth_error es (Z.to_nat v) = Some f /\ spelling f = t.
Proof.
  unfold value_to_string, enum_to_string, names_array. destruct (Z.ltb_spec v 0).
  - split; [discriminate|]. intros (f & H1 & _). lia.
  - rewrite nth_error_map. destruct (nth_error es (Z.to_nat v)) as [f|]; cbn.
    + split; [intros E; injection E as <-; exists f; auto|]. intros (g & _ & E & <-). congruence.
    + split; [discriminate|]. intros (g & _ & E & _). discriminate.
Qed.

Lemma name_iff_lemma : forall es i e v, compiles es -> declared es i e v ->
  (value_to_string es v = Ret (name e) <-> v = Z.of_nat i /\ given e = None).
Proof.
  intros es i e v C [He Hv]. rewrite to_string_spec. split.
  - intros (f & Hp & Hf & Hs). destruct (spelling_name _ _ _ _ _ C He Hf Hs) as [Hj Hg]. split; [lia|]. rewrite Hj in Hf. congruence.
  - intros [-> G]. exists e. split; [lia|]. rewrite Nat2Z.id. split; [exact He|]. unfold spelling. rewrite G. reflexivity.
Qed.

Lemma from_string_ret es t v : value_from_string es t = Ret v -> exists i f, v = Z.of_nat i /\ nth_error es i = Some f /\ spelling f = t.
Proof.
  unfold value_from_string. destruct (enum_from_string (names_array es) t) as [i| | | |] eqn:E; try discriminate. intros H. injection H as <-.
  destruct (enum_to_from_lemma _ _ _ E) as [_ X]. unfold enum_to_string, names_array in X. rewrite nth_error_map in X.
  destruct (nth_error es i) as [f|] eqn:F; [|discriminate]. cbn in X. injection X as X. exists i, f. auto.
Qed.

Lemma from_iff_lemma : forall es i e v, compiles es -> declared es i e v ->
  (value_from_string es (name e) = Ret v <-> v = Z.of_nat i /\ given e = None) /\
  (given e <> None -> value_from_string es (name e) = Throw Initialization).
Proof.
  intros es i e v C [He Hv].
  assert (Out : given e <> None -> value_from_string es (name e) = Throw Initialization).
  { intros G. unfold value_from_string. assert (X : enum_from_string (names_array es) (name e) = Throw Initialization); [|rewrite X; reflexivity].
    apply enum_reject_lemma. unfold names_array. rewrite in_map_iff. intros (f & Hs & Hf). apply In_nth_error in Hf as [j Hf].
    destruct (spelling_name _ _ _ _ _ C He Hf Hs) as [-> Hg]. congruence. }
  split; [|exact Out]. split.
  - intros E. destruct (from_string_ret _ _ _ E) as (j & f & -> & Hf & Hs). destruct (spelling_name _ _ _ _ _ C He Hf Hs) as [-> Hg]. split; [reflexivity|congruence].
  - intros [-> G]. unfold value_from_string. destruct (enum_from_string (names_array es) (name e)) as [j|x| | |] eqn:E.
    + assert (V : value_from_string es (name e) = Ret (Z.of_nat j)) by (unfold value_from_string; rewrite E; reflexivity).
      destruct (from_string_ret _ _ _ V) as (k & f & Hk & Hf & Hs). destruct (spelling_name _ _ _ _ _ C He Hf Hs) as [-> _]. f_equal. exact Hk.
    + exfalso. assert (X : x = Initialization) by (unfold enum_from_string in E; destruct (enum_find _ _); congruence). rewrite X in E. apply (proj1 (enum_reject_lemma _ _) E).
      unfold names_array. apply in_map_iff. exists e. split; [unfold spelling; rewrite G; reflexivity|]. eapply nth_error_In; exact He.
    + unfold enum_from_string in E. destruct (enum_find _ _); discriminate.
    + unfold enum_from_string in E. destruct (enum_find _ _); discriminate.
    + unfold enum_from_string in E. destruct (enum_find _ _); discriminate.
Qed.

Lemma defined_lemma : forall es, (forall i e v, declared es i e v -> value_to_string es v <> UB) <-> (forall v, In v (values_of es) -> (0 <= v < Z.of_nat (length es))%Z).
Proof.
  intros es. split.
  - intros H v Hv. apply In_nth_error in Hv as [i Hi]. assert (L : i < length es) by (rewrite <- (numbered_length es 0); apply nth_error_Some; unfold values_of in Hi; congruence).
    destruct (nth_error es i) as [e|] eqn:He; [|apply nth_error_None in He; lia]. specialize (H i e v (conj He Hi)).
    unfold value_to_string, enum_to_string, names_array in H. destruct (Z.ltb_spec v 0); [contradiction|]. rewrite nth_error_map in H.
    destruct (nth_error es (Z.to_nat v)) eqn:E; [|contradiction]. assert (Z.to_nat v < length es) by (apply nth_error_Some; congruence). lia.
  - intros H i e v [_ Hv]. apply nth_error_In in Hv. specialize (H v Hv). unfold value_to_string, enum_to_string, names_array. destruct (Z.ltb_spec v 0); [lia|].
    rewrite nth_error_map. destruct (nth_error es (Z.to_nat v)) eqn:E; [discriminate|]. apply nth_error_None in E. lia.
Qed.

Lemma plain_lemma : forall es i e, compiles es -> plain es -> nth_error es i = Some e ->
  declared es i e (Z.of_nat i) /\ value_to_string es (Z.of_nat i) = Ret (name e) /\ value_from_string es (name e) = Ret (Z.of_nat i).
Proof.
  intros es i e C P He. assert (D : declared es i e (Z.of_nat i)).
  { split; [exact He|]. unfold values_of. rewrite numbered_plain; [reflexivity|exact P|]. apply nth_error_Some. congruence. }
  assert (G := P e (nth_error_In _ _ He)). split; [exact D|]. split; [apply (name_iff_lemma _ _ _ _ C D); auto|apply (from_iff_lemma _ _ _ _ C D); auto].
Qed.

Lemma values_array_nth es i : i < length es -> nth_error (values_array es) i = Some (Z.of_nat i).
Proof.
  intros L. unfold values_array, enum_all_values, names_array. rewrite nth_error_map, map_length.
  rewrite (nth_error_nth' _ 0) by (rewrite seq_length; exact L). rewrite seq_nth by exact L. reflexivity.
Qed.
Lemma values_array_length es : length (values_array es) = length es.
Proof. unfold values_array, enum_all_values, names_array. rewrite map_length, seq_length, map_length. reflexivity. Qed.

Lemma values_lemma : forall es, values_array es = values_of es <-> forall i e v, declared es i e v -> v = Z.of_nat i.
Proof.
  intros es. split.
  - intros E i e v [He Hv]. rewrite <- E in Hv. rewrite values_array_nth in Hv by (apply nth_error_Some; congruence). congruence.
  - intros H. assert (X : forall i, nth_error (values_array es) i = nth_error (values_of es) i).
    { intros i. destruct (Nat.lt_ge_cases i (length es)) as [L|L].
      - rewrite values_array_nth by exact L. destruct (nth_error es i) as [e|] eqn:He; [|apply nth_error_None in He; lia].
        destruct (nth_error (values_of es) i) as [v|] eqn:Hv; [|apply nth_error_None in Hv; unfold values_of in Hv; rewrite numbered_length in Hv; lia].
        rewrite (H i e v (conj He Hv)). reflexivity.
      - rewrite (proj2 (nth_error_None _ _)), (proj2 (nth_error_None _ _)); [reflexivity| |]; [unfold values_of; rewrite numbered_length|rewrite values_array_length]; exact L. }
    revert X. generalize (values_array es) (values_of es). clear. induction l as [|a l IH]; intros [|b m] X; try reflexivity; try (specialize (X 0); discriminate).
    pose proof (X 0) as X0. cbn in X0. injection X0 as ->. f_equal. apply IH. intros i. exact (X (S i)).
Qed.
