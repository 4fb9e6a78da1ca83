(** Lemmas tying the executable string operations to the vocabulary. *)
From Verif Require Import Str Str_spec.

Lemma str_eqb_eq : forall a b, str_eqb a b = true <-> a = b.
Proof.
  induction a as [|x a IH]; destruct b as [|y b]; cbn; split; intros H; try congruence; try discriminate.
  - apply andb_true_iff in H as [H1 H2]. apply Ascii.eqb_eq in H1. apply IH in H2. congruence.
  - inversion H; subst. rewrite Ascii.eqb_refl. cbn. apply IH. reflexivity.
Qed.

Lemma str_eqb_refl : forall a, str_eqb a a = true.
Proof. intros a. apply str_eqb_eq. reflexivity. Qed.

Lemma str_eqb_neq : forall a b, str_eqb a b = false <-> a <> b.
Proof.
  intros a b. destruct (str_eqb a b) eqn:E.
  - apply str_eqb_eq in E. split; [discriminate|congruence].
  - split; [|reflexivity]. intros _ H. apply str_eqb_eq in H. congruence.
Qed.

Lemma str_dec : forall a b : str, {a = b} + {a <> b}.
Proof. exact (list_eq_dec ascii_dec). Qed.

Lemma prefixb_iff : forall p t, prefixb p t = true <-> exists v, t = p ++ v.
Proof.
  induction p as [|x p IH]; intros t; cbn.
  - split; [intros _; exists t; reflexivity|reflexivity].
  - destruct t as [|y t].
    + split; [discriminate|]. intros [v H]. discriminate.
    + rewrite andb_true_iff, Ascii.eqb_eq, IH. split.
      * intros [-> [v ->]]. exists v. reflexivity.
      * intros [v H]. cbn in H. inversion H; subst. split; [reflexivity|exists v; reflexivity].
Qed.

Lemma prefixb_app : forall p v, prefixb p (p ++ v) = true.
Proof. intros. apply prefixb_iff. exists v. reflexivity. Qed.

Lemma prefixb_length : forall p t, prefixb p t = true -> length p <= length t.
Proof. intros p t H. apply prefixb_iff in H as [v ->]. rewrite app_length. lia. Qed.

Lemma sfind_eq : forall p t,
  sfind p t = if prefixb p t then Some 0
             else match t with [] => None | _ :: t' => option_map S (sfind p t') end.
Proof. intros p [|x t]; reflexivity. Qed.

(** [sfind] returns the leftmost occurrence *)
Lemma sfind_some : forall p t i, sfind p t = Some i ->
  exists u v, t = u ++ p ++ v /\ length u = i /\
    forall u' v', t = u' ++ p ++ v' -> i <= length u'.
Proof.
  intros p t. induction t as [|x t IH]; intros i H; rewrite sfind_eq in H.
  - destruct (prefixb p []) eqn:E; [|discriminate]. inversion H; subst.
    apply prefixb_iff in E as [v E]. exists [], v. repeat split; auto. intros; lia.
  - destruct (prefixb p (x :: t)) eqn:E.
    + inversion H; subst. apply prefixb_iff in E as [v E]. exists [], v. repeat split; auto. intros; lia.
    + destruct (sfind p t) as [j|] eqn:F; [|discriminate]. cbn in H. inversion H; subst.
      destruct (IH j eq_refl) as (u & v & -> & Hl & Hmin).
      exists (x :: u), v. repeat split; [cbn; lia|].
      intros u' v' Heq. destruct u' as [|y u'].
      * exfalso. cbn in Heq. assert (prefixb p (x :: u ++ p ++ v) = true) as C.
        { apply prefixb_iff. exists v'. exact Heq. } congruence.
      * cbn in Heq. inversion Heq; subst. cbn. specialize (Hmin u' v' H2). lia.
Qed.

Lemma sfind_none : forall p t, sfind p t = None <-> ~ contains t p.
Proof.
  intros p t. induction t as [|x t IH]; rewrite sfind_eq.
  - destruct (prefixb p []) eqn:E.
    + split; [discriminate|]. intros H. exfalso. apply H. apply prefixb_iff in E as [v E]. exists [], v. exact E.
    + split; [|reflexivity]. intros _ (u & v & H). destruct u; [|discriminate].
      assert (prefixb p [] = true) by (apply prefixb_iff; exists v; exact H). congruence.
  - destruct (prefixb p (x :: t)) eqn:E.
    + split; [discriminate|]. intros H. exfalso. apply H. apply prefixb_iff in E as [v E]. exists [], v. exact E.
    + destruct (sfind p t) as [j|] eqn:F; cbn.
      * split; [discriminate|]. intros H. exfalso. apply H.
        destruct (sfind_some _ _ _ F) as (u & v & -> & _). exists (x :: u), v. reflexivity.
      * split; [|reflexivity]. intros _ (u & v & H). destruct u as [|y u].
        -- assert (prefixb p (x :: t) = true) by (apply prefixb_iff; exists v; exact H). congruence.
        -- cbn in H. inversion H; subst. apply IH; [reflexivity|]. exists u, v. reflexivity.
Qed.

Lemma sfind_spec : forall p t i,
  sfind p t = Some i <-> exists u v, leftmost t p u v /\ length u = i.
Proof.
  intros p t i. split.
  - intros H. destruct (sfind_some _ _ _ H) as (u & v & E & L & M).
    exists u, v. subst i. split; [split; assumption|reflexivity].
  - intros (u & v & [E M] & L). destruct (sfind p t) as [j|] eqn:F.
    + destruct (sfind_some _ _ _ F) as (u' & v' & E' & L' & M').
      specialize (M u' v' E'). specialize (M' u v E). f_equal. lia.
    + apply sfind_none in F. exfalso. apply F. exists u, v. exact E.
Qed.

Lemma sfind_contains : forall p t, contains t p <-> exists i, sfind p t = Some i.
Proof.
  intros p t. destruct (sfind p t) as [i|] eqn:F.
  - split; [eauto|]. intros _. destruct (sfind_some _ _ _ F) as (u & v & E & _). exists u, v. exact E.
  - apply sfind_none in F. split; [contradiction|]. intros [i H]. discriminate.
Qed.

Lemma contains_dec : forall t p, {contains t p} + {~ contains t p}.
Proof.
  intros t p. destruct (sfind p t) as [i|] eqn:F.
  - left. apply sfind_contains. eauto.
  - right. apply sfind_none. exact F.
Qed.

Lemma sfind_bound : forall p t i, sfind p t = Some i -> i + length p <= length t.
Proof.
  intros p t i H. destruct (sfind_some _ _ _ H) as (u & v & -> & <- & _).
  rewrite !app_length. lia.
Qed.

Lemma sfind_nil : forall t, sfind [] t = Some 0.
Proof. intros [|x t]; reflexivity. Qed.

(** [srfind] returns the rightmost occurrence *)
Lemma srfind_none : forall p t, srfind p t = None <-> ~ contains t p.
Proof.
  intros p t. induction t as [|x t IH].
  - cbn. destruct (prefixb p []) eqn:E.
    + split; [discriminate|]. intros H. exfalso. apply H. apply prefixb_iff in E as [v E]. exists [], v. exact E.
    + split; [|reflexivity]. intros _ (u & v & H). destruct u; [|discriminate].
      assert (prefixb p [] = true) by (apply prefixb_iff; exists v; exact H). congruence.
  - cbn [srfind]. destruct (srfind p t) as [j|] eqn:F.
    + split; [discriminate|]. intros H. exfalso. apply H.
      assert (~ ~ contains t p) as N by (intros C; apply IH in C; discriminate).
      destruct (contains_dec t p) as [(u & v & ->)|C]; [|contradiction].
      exists (x :: u), v. reflexivity.
    + destruct (prefixb p (x :: t)) eqn:E.
      * split; [discriminate|]. intros H. exfalso. apply H. apply prefixb_iff in E as [v E]. exists [], v. exact E.
      * split; [|reflexivity]. intros _ (u & v & H). destruct u as [|y u].
        -- assert (prefixb p (x :: t) = true) by (apply prefixb_iff; exists v; exact H). congruence.
        -- cbn in H. inversion H; subst. apply IH; [reflexivity|]. exists u, v. reflexivity.
Qed.

Lemma srfind_some : forall p t i, srfind p t = Some i ->
  exists u v, t = u ++ p ++ v /\ length u = i /\
    forall u' v', t = u' ++ p ++ v' -> length u' <= i.
Proof.
  intros p t. induction t as [|x t IH]; intros i H.
  - cbn in H. destruct (prefixb p []) eqn:E; [|discriminate]. inversion H; subst.
    apply prefixb_iff in E as [v E]. exists [], v. repeat split; auto.
    intros u' v' C. symmetry in C. apply app_eq_nil in C as [-> _]. cbn. lia.
  - cbn [srfind] in H. destruct (srfind p t) as [j|] eqn:F.
    + inversion H; subst. destruct (IH j eq_refl) as (u & v & -> & L & M).
      exists (x :: u), v. repeat split; [cbn; lia|].
      intros u' v' C. destruct u' as [|y u']; [cbn; lia|]. cbn in C. inversion C; subst.
      specialize (M u' v' H2). cbn. lia.
    + destruct (prefixb p (x :: t)) eqn:E; [|discriminate]. inversion H; subst.
      apply prefixb_iff in E as [v E]. exists [], v. repeat split; auto.
      intros u' v' C. destruct u' as [|y u']; [cbn; lia|]. cbn in C. inversion C; subst.
      apply srfind_none in F. exfalso. apply F. exists u', v'. reflexivity.
Qed.

(** the pieces of a string around an occurrence *)
Lemma firstn_len_app : forall (A : Type) (a b : list A), firstn (length a) (a ++ b) = a.
Proof. intros. rewrite firstn_app, Nat.sub_diag, firstn_all. cbn. apply app_nil_r. Qed.

Lemma skipn_len_app : forall (A : Type) (a b : list A), skipn (length a) (a ++ b) = b.
Proof. intros. rewrite skipn_app, Nat.sub_diag, skipn_all. reflexivity. Qed.

Lemma replace_at_app : forall u p v r,
  replace_at (u ++ p ++ v) (length u) (length p) r = u ++ r ++ v.
Proof.
  intros. unfold replace_at. rewrite firstn_len_app. f_equal. f_equal.
  rewrite app_assoc, <- app_length. apply skipn_len_app.
Qed.

Lemma count_app : forall c a b, count c (a ++ b) = count c a + count c b.
Proof. intros. unfold count. apply count_occ_app. Qed.

Lemma contains_app_l : forall p a b, contains a p -> contains (a ++ b) p.
Proof. intros p a b (u & v & ->). exists u, (v ++ b). rewrite <- !app_assoc. reflexivity. Qed.

Lemma contains_app_r : forall p a b, contains b p -> contains (a ++ b) p.
Proof. intros p a b (u & v & ->). exists (a ++ u), v. rewrite <- !app_assoc. reflexivity. Qed.

Lemma contains_trans : forall a b c, contains a b -> contains b c -> contains a c.
Proof.
  intros a b c (u & v & ->) (u' & v' & ->). exists (u ++ u'), (v' ++ v).
  rewrite <- !app_assoc. reflexivity.
Qed.

Lemma contains_nil : forall t, contains t [].
Proof. intros t. exists [], t. reflexivity. Qed.

Lemma contains_length : forall t p, contains t p -> length p <= length t.
Proof. intros t p (u & v & ->). rewrite !app_length. lia. Qed.

Lemma contains_single : forall c t, contains t [c] <-> In c t.
Proof.
  intros c t. split.
  - intros (u & v & ->). apply in_or_app. right. left. reflexivity.
  - intros H. apply in_split in H as (u & v & ->). exists u, v. reflexivity.
Qed.

Lemma count_zero_iff : forall c t, count c t = 0 <-> ~ In c t.
Proof. intros c t. unfold count. symmetry. apply count_occ_not_In. Qed.

Lemma sfind_from_spec : forall p t pos, pos <= length t ->
  sfind_from p t pos = option_map (Nat.add pos) (sfind p (skipn pos t)).
Proof. intros p t pos H. unfold sfind_from. apply Nat.leb_le in H. rewrite H. reflexivity. Qed.

Lemma skipn_skipn' : forall (A : Type) a b (l : list A), skipn a (skipn b l) = skipn (a + b) l.
Proof.
  intros A a b l. revert a b. induction l as [|x l IH]; intros a b.
  - rewrite !skipn_nil. reflexivity.
  - destruct b as [|b]; [rewrite Nat.add_0_r; reflexivity|].
    rewrite Nat.add_succ_r. cbn [skipn]. apply IH.
Qed.
