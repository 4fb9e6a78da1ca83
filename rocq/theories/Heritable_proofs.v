(** Proofs about the variables of type Heritable. *)
From Coq Require Import Lia.
From Verif Require Import Heritable_model Heritable_spec.

Ltac sf := cbn [objects variables deleted set_objects set_variables add_deleted with_owners with_content dynamic content owners deleter static target] in *.

Lemma derives_refl c : derives c c = true.
Proof. induction c as [|x c IH]; cbn; [reflexivity|]. rewrite Nat.eqb_refl, IH. reflexivity. Qed.
Lemma derives_trans a b c : derives a b = true -> derives b c = true -> derives a c = true.
Proof.
  revert a b. induction c as [|x c IH]; intros a b H G; [destruct a; reflexivity|].
  destruct b as [|y b]; [discriminate G|]. destruct a as [|z a]; [discriminate H|]. cbn in *.
  apply andb_true_iff in H as [H1 H2]. apply andb_true_iff in G as [G1 G2]. apply Nat.eqb_eq in H1, G1. subst. rewrite Nat.eqb_refl. exact (IH _ _ H2 G2).
Qed.
Lemma same_eq a b : same a b = true -> a = b.
Proof.
  unfold same. intro H. apply andb_true_iff in H as [H G]. revert b H G. induction a as [|x a IH]; intros [|y b] H G; cbn in *; try discriminate; [reflexivity|].
  apply andb_true_iff in H as [H1 H2]. apply andb_true_iff in G as [_ G2]. apply Nat.eqb_eq in H1. subst. f_equal. exact (IH _ H2 G2).
Qed.

Definition hold (ex : option nat) (k : nat) : nat := match ex with Some j => if Nat.eqb j k then 1 else 0 | None => 0 end.
Definition points (k : nat) (ov : option variable) : nat := match ov with Some v => hold (target v) k | None => 0 end.
Definition count (w : world) (k : nat) : nat := number_of (points k) (variables w).

Lemma number_app {A} (f : A -> nat) l x : number_of f (l ++ [x]) = number_of f l + f x.
Proof. induction l as [|a l IH]; unfold number_of in *; cbn in *; lia. Qed.
Lemma hold_same k : hold (Some k) k = 1.
Proof. cbn. rewrite Nat.eqb_refl. reflexivity. Qed.
Lemma hold_other j k : j <> k -> hold (Some j) k = 0.
Proof. intro H. cbn. apply Nat.eqb_neq in H. rewrite H. reflexivity. Qed.

(** the counts of owners are right, with a temporary that has [ex]; an object is deleted when it has no
    owner *)
Definition bal (w : world) (ex : option nat) : Prop :=
  (forall k o, nth_error (objects w) k = Some o -> owners o = count w k + hold ex k) /\
  (forall k, List.length (objects w) <= k -> count w k + hold ex k = 0) /\
  (forall k, In k (deleted w) <-> k < List.length (objects w) /\ count w k + hold ex k = 0) /\
  NoDup (deleted w).
(** objects are of the types of their variables *)
Definition typed (w : world) : Prop := forall h v i, nth_error (variables w) h = Some (Some v) -> target v = Some i ->
  exists o, nth_error (objects w) i = Some o /\ derives (dynamic o) (static v) = true.

Lemma var_nth w h v : var w h = Some v -> nth_error (variables w) h = Some (Some v).
Proof. unfold var. destruct (nth_error (variables w) h) as [[x|]|]; congruence. Qed.
Lemma nth_var w h v : nth_error (variables w) h = Some (Some v) -> var w h = Some v.
Proof. unfold var. intros ->. reflexivity. Qed.

Lemma var_count w h v k : var w h = Some v -> target v = Some k -> count w k <> 0.
Proof.
  intros H T. apply var_nth in H. pose proof (number_ge (points k) _ _ _ H) as G. cbn [points] in G. rewrite T, hold_same in G. unfold count. lia.
Qed.

Lemma bal_acquire w t : bal w None -> (forall k, t = Some k -> count w k <> 0) -> bal (acquire w t) t.
Proof.
  intros (B1 & B2 & B3 & B4) P. destruct t as [j|]; cbn [acquire]; [|exact (conj B1 (conj B2 (conj B3 B4)))].
  specialize (P _ eq_refl). cbn [hold] in B1, B2, B3.
  destruct (nth_error (objects w) j) as [o|] eqn:E; [|exfalso; apply nth_error_None in E; specialize (B2 _ E); lia].
  unfold bal, count in *; sf. rewrite upd_length. refine (conj _ (conj _ (conj _ B4))).
  - intros k p H. apply nth_upd in H as [[-> ->]|[D H]].
    + sf. rewrite (B1 _ _ E), hold_same. lia.
    + rewrite (B1 _ _ H), (hold_other j k) by congruence. reflexivity.
  - intros k H. specialize (B2 _ H). rewrite hold_other; [lia|]. intros ->. lia.
  - intro k. rewrite B3. destruct (Nat.eq_dec j k) as [<-|D]; [rewrite hold_same; lia|rewrite (hold_other _ _ D); lia].
Qed.

Lemma bal_release virtual w t w' : bal w t -> release virtual w t = Some w' -> bal w' None.
Proof.
  intros (B1 & B2 & B3 & B4) R. destruct t as [j|]; cbn [release] in R; [|injection R as <-; exact (conj B1 (conj B2 (conj B3 B4)))].
  destruct (nth_error (objects w) j) as [o|] eqn:E; [|discriminate].
  assert (L : j < List.length (objects w)) by (apply nth_error_Some; congruence).
  pose proof (B1 _ _ E) as O. rewrite hold_same in O.
  assert (NI : ~ In j (deleted w)) by (intro Q; apply B3 in Q as [_ Q]; rewrite hold_same in Q; lia).
  assert (C1 : forall k p, nth_error (upd (objects w) j (with_owners o (pred (owners o)))) k = Some p -> owners p = count w k + 0).
  { intros k p H. apply nth_upd in H as [[-> ->]|[D H]]; sf; [rewrite O; lia|]. rewrite (B1 _ _ H), hold_other by congruence. reflexivity. }
  assert (C2 : forall k, List.length (objects w) <= k -> count w k + 0 = 0) by (intros k H; specialize (B2 _ H); lia).
  destruct (owners o) as [|[|m]] eqn:EO; [lia| |].
  - destruct (same _ _ || virtual _); [|discriminate]. injection R as <-. unfold bal, count in *; sf. rewrite upd_length. cbn [hold].
    refine (conj C1 (conj C2 (conj _ (NoDup_cons _ NI B4)))).
    intro k. cbn [In]. rewrite B3. destruct (Nat.eq_dec j k) as [<-|D]; [split; [lia|intros _; left; reflexivity]|].
    rewrite (hold_other _ _ D). split; [intros [?|?]; [contradiction|lia]|intro; right; lia].
  - injection R as <-. unfold bal, count in *; sf. rewrite upd_length. cbn [hold].
    refine (conj C1 (conj C2 (conj _ B4))).
    intro k. rewrite B3. destruct (Nat.eq_dec j k) as [<-|D]; [rewrite hold_same; lia|rewrite (hold_other _ _ D); lia].
Qed.

(** [h] takes what the temporary has, which takes what [h] had *)
Lemma count_put w h v i k : var w h = Some v -> count (put w h i) k + hold (target v) k = count w k + hold i k.
Proof.
  intro H. unfold put. rewrite H. unfold count; sf. apply var_nth in H.
  pose proof (number_upd (points k) _ _ (Some {| static := static v; target := i |}) _ H) as G. cbn [points target] in G. exact G.
Qed.
Lemma bal_put w h v i : bal w i -> var w h = Some v -> bal (put w h i) (target v).
Proof.
  intros (B1 & B2 & B3 & B4) H. pose proof (count_put w h v i) as C.
  assert (O : objects (put w h i) = objects w) by (unfold put; rewrite H; reflexivity).
  assert (D : deleted (put w h i) = deleted w) by (unfold put; rewrite H; reflexivity).
  unfold bal. rewrite O, D. refine (conj _ (conj _ (conj _ B4))).
  - intros k o Hk. rewrite (C k H). auto.
  - intros k Hk. rewrite (C k H). auto.
  - intro k. rewrite (C k H). auto.
Qed.
Lemma bal_put_null w h v : bal w None -> var w h = Some v -> bal (put w h None) (target v).
Proof. intros B H. exact (bal_put _ _ _ _ B H). Qed.
Lemma bal_declare w t i : bal w i -> bal (declare w t i) None.
Proof.
  intros (B1 & B2 & B3 & B4). unfold bal, declare, count in *; sf. cbn [hold].
  assert (C : forall k, number_of (points k) (variables w ++ [Some {| static := t; target := i |}]) + 0 = number_of (points k) (variables w) + hold i k) by (intro; rewrite number_app; cbn [points target]; lia).
  refine (conj _ (conj _ (conj _ B4))).
  - intros k o Hk. rewrite C. auto.
  - intros k Hk. rewrite C. auto.
  - intro k. rewrite C. auto.
Qed.
Lemma bal_make w o : bal w None -> owners o = 1 -> bal (set_objects w (objects w ++ [o])) (Some (List.length (objects w))).
Proof.
  intros (B1 & B2 & B3 & B4) O. unfold bal, count in *; sf. rewrite app_length. cbn [List.length hold] in *.
  refine (conj _ (conj _ (conj _ B4))).
  - intros k p H. destruct (Nat.lt_ge_cases k (List.length (objects w))) as [L|L].
    + rewrite nth_error_app1 in H by exact L. rewrite (proj2 (Nat.eqb_neq _ _)) by lia. auto.
    + rewrite nth_error_app2 in H by exact L. destruct (k - List.length (objects w)) as [|[|?]] eqn:E; try discriminate H. injection H as <-.
      replace k with (List.length (objects w)) by lia. rewrite Nat.eqb_refl. specialize (B2 _ (le_n (List.length (objects w)))). lia.
  - intros k H. assert (L : List.length (objects w) <= k) by lia. specialize (B2 _ L). rewrite (proj2 (Nat.eqb_neq _ _)) by lia. lia.
  - intro k. rewrite B3. destruct (Nat.eq_dec (List.length (objects w)) k) as [<-|D].
    + rewrite Nat.eqb_refl. lia.
    + rewrite (proj2 (Nat.eqb_neq _ _) D). destruct (Nat.lt_ge_cases k (List.length (objects w))); [lia|]. split; [lia|]. intros [? ?]. lia.
Qed.
Lemma bal_destroy w h v : bal w None -> var w h = Some v -> bal (set_variables w (upd (variables w) h None)) (target v).
Proof.
  intros (B1 & B2 & B3 & B4) H. apply var_nth in H.
  assert (C : forall k, count (set_variables w (upd (variables w) h None)) k + hold (target v) k = count w k + 0).
  { intro k. unfold count; sf. pose proof (number_upd (points k) _ _ None _ H) as G. cbn [points] in G. lia. }
  unfold bal; sf. refine (conj _ (conj _ (conj _ B4))).
  - intros k o Hk. rewrite C. cbn [hold] in *. auto.
  - intros k Hk. rewrite C. cbn [hold] in *. auto.
  - intro k. rewrite C. cbn [hold] in *. auto.
Qed.
Lemma bal_set w k o z : bal w None -> nth_error (objects w) k = Some o -> bal (set_objects w (upd (objects w) k (with_content o z))) None.
Proof.
  intros (B1 & B2 & B3 & B4) H. unfold bal, count in *; sf. rewrite upd_length. refine (conj _ (conj B2 (conj B3 B4))).
  intros j p Hj. apply nth_upd in Hj as [[-> ->]|[D Hj]]; [sf; exact (B1 _ _ H)|exact (B1 _ _ Hj)].
Qed.

Lemma acquire_vars w t : variables (acquire w t) = variables w /\ deleted (acquire w t) = deleted w.
Proof. unfold acquire. destruct t as [k|]; [|split; reflexivity]. destruct (nth_error _ _); split; reflexivity. Qed.
Lemma var_acquire w t h : var (acquire w t) h = var w h.
Proof. unfold var. rewrite (proj1 (acquire_vars w t)). reflexivity. Qed.
Lemma var_put_other w g i h : h <> g -> var (put w g i) h = var w h.
Proof. intro D. unfold put. destruct (var w g) eqn:E; [|reflexivity]. unfold var; sf. rewrite nth_upd_other by congruence. reflexivity. Qed.

Section Bal.
Variable virtual : class -> bool.
Variable moves : bool.
Lemma bal_exec w o w' a : bal w None -> exec virtual moves w o = Done w' a -> bal w' None.
Proof.
  intros B E. destruct o; cbn [exec] in E; unfold look, look2, replace in E.
  all: repeat (match type of E with
    | (if ?c then _ else _) = _ => destruct c eqn:?
    | match ?c with _ => _ end = _ => destruct c eqn:?
    end; try discriminate E); try discriminate E; injection E as <- <-; try exact B.
  - apply bal_declare. apply bal_make; [exact B|reflexivity].
  - apply bal_declare. apply bal_acquire; [exact B|]. intros k T. eapply var_count; eauto.
  - apply bal_declare. eapply bal_put_null; eauto.
  - apply bal_declare. apply bal_acquire; [exact B|]. intros k T. eapply var_count; eauto.
  - eapply bal_release; [|eassumption]. eapply bal_put; [|rewrite var_acquire; eassumption]. apply bal_acquire; [exact B|]. intros k T. eapply var_count; eauto.
  - eapply bal_release; [|eassumption]. apply Nat.eqb_neq in Heqb1. eapply bal_put; [|rewrite var_put_other by exact Heqb1; eassumption]. eapply bal_put_null; eauto.
  - eapply bal_release; [|eassumption]. eapply bal_put; [|rewrite var_acquire; eassumption]. apply bal_acquire; [exact B|]. intros k T. eapply var_count; eauto.
  - eapply bal_release; [|eassumption]. eapply bal_destroy; eauto.
  - eapply bal_set; eauto.
Qed.
End Bal.

(** objects stay what they are, except for the count of owners *)
Definition alike (o o' : object) : Prop := dynamic o' = dynamic o /\ deleter o' = deleter o /\ content o' = content o.
Definition keeps (w w' : world) : Prop :=
  List.length (objects w') = List.length (objects w) /\
  forall i o, nth_error (objects w) i = Some o -> exists o', nth_error (objects w') i = Some o' /\ alike o o'.
Lemma keeps_refl w : keeps w w.
Proof. split; [reflexivity|]. intros i o H. exists o. split; [exact H|repeat split]. Qed.
Lemma keeps_trans a b c : keeps a b -> keeps b c -> keeps a c.
Proof.
  intros [L1 K1] [L2 K2]. split; [congruence|]. intros i o H. destruct (K1 _ _ H) as (p & Hp & A1 & A2 & A3). destruct (K2 _ _ Hp) as (q & Hq & B1 & B2 & B3).
  exists q. split; [exact Hq|]. split; [congruence|]. split; congruence.
Qed.
Lemma keeps_owners w j o n : nth_error (objects w) j = Some o -> keeps w (set_objects w (upd (objects w) j (with_owners o n))).
Proof.
  intro H. split; [sf; apply upd_length|]. intros i p Hi. sf. destruct (Nat.eq_dec j i) as [<-|D].
  - rewrite (nth_upd_same _ _ _ _ H). eexists. split; [reflexivity|]. assert (p = o) by congruence. subst. repeat split.
  - rewrite nth_upd_other by exact D. exists p. split; [exact Hi|repeat split].
Qed.
Lemma keeps_acquire w t : keeps w (acquire w t).
Proof.
  unfold acquire. destruct t as [k|]; [|apply keeps_refl]. destruct (nth_error (objects w) k) eqn:E; [|apply keeps_refl]. apply keeps_owners; exact E.
Qed.
Lemma keeps_release virtual w t w' : release virtual w t = Some w' -> keeps w w' /\ variables w' = variables w.
Proof.
  unfold release. destruct t as [k|]; [|intro E; injection E as <-; split; [apply keeps_refl|reflexivity]].
  destruct (nth_error (objects w) k) as [o|] eqn:E; [|discriminate]. pose proof (keeps_owners w k o (pred (owners o)) E) as K.
  destruct (owners o) as [|[|m]]; intro R; try (injection R as <-; split; [exact K|reflexivity]).
  destruct (same _ _ || _); [|discriminate]. injection R as <-. split; [exact K|reflexivity].
Qed.
Lemma keeps_same_objects w w' : objects w' = objects w -> keeps w w'.
Proof. intro H. split; [congruence|]. intros i o Hi. exists o. rewrite H. split; [exact Hi|repeat split]. Qed.
Lemma put_objects w h i : objects (put w h i) = objects w.
Proof. unfold put. destruct (var w h); reflexivity. Qed.
Lemma keeps_contents w w' : keeps w w' -> contents w' = contents w.
Proof.
  intros [L K]. unfold contents. revert L K. generalize (objects w), (objects w'). intros a. induction a as [|x a IH]; intros [|y b] L K; cbn in *; try discriminate; [reflexivity|].
  destruct (K 0 x eq_refl) as (o' & E & _ & _ & C). cbn in E. injection E as ->. f_equal; [exact C|].
  apply IH; [lia|]. intros i o H. exact (K (S i) o H).
Qed.

Ltac cases E :=
  repeat (match type of E with
    | (if ?c then _ else _) = _ => destruct c eqn:?
    | match ?c with _ => _ end = _ => destruct c eqn:?
    end; try discriminate E); try discriminate E.

(** what the variables have after a step *)
Lemma pointee_put w h v i g : var w h = Some v -> pointee (put w h i) g = if Nat.eqb g h then Some i else pointee w g.
Proof.
  intro H. unfold put. rewrite H. unfold pointee; sf. apply var_nth in H. destruct (Nat.eqb_spec g h) as [->|D].
  - rewrite (nth_upd_same _ _ _ _ H). reflexivity.
  - rewrite nth_upd_other by congruence. reflexivity.
Qed.
Lemma pointee_declare w t i g : pointee (declare w t i) g = if Nat.eqb g (List.length (variables w)) then Some i else pointee w g.
Proof.
  unfold pointee, declare; sf. destruct (Nat.eqb_spec g (List.length (variables w))) as [->|D].
  - rewrite nth_error_app2, Nat.sub_diag by lia. reflexivity.
  - destruct (Nat.lt_ge_cases g (List.length (variables w))) as [L|L]; [rewrite nth_error_app1 by exact L; reflexivity|].
    rewrite nth_error_app2 by exact L. rewrite (proj2 (nth_error_None (variables w) g)) by exact L.
    destruct (g - List.length (variables w)) as [|[|?]] eqn:E; try reflexivity. lia.
Qed.
Lemma var_pointee w h v : var w h = Some v -> pointee w h = Some (target v).
Proof. intro H. apply var_nth in H. unfold pointee. rewrite H. reflexivity. Qed.
Lemma pointee_vars w w' g : variables w' = variables w -> pointee w' g = pointee w g.
Proof. intro H. unfold pointee. rewrite H. reflexivity. Qed.
Lemma length_put w h i : List.length (variables (put w h i)) = List.length (variables w).
Proof. unfold put. destruct (var w h); [apply upd_length|reflexivity]. Qed.

Section Steps.
Variable virtual : class -> bool.
Variable moves : bool.
Notation exec := (exec virtual moves).

Lemma copy_lemma w t g w' a : exec w (Copy t g) = Done w' a ->
  contents w' = contents w /\ deleted w' = deleted w /\ pointee w' (List.length (variables w)) = pointee w g /\
  forall h, h <> List.length (variables w) -> pointee w' h = pointee w h.
Proof.
  cbn [Heritable_model.exec]. intro E. cases E. injection E as <- <-. destruct (acquire_vars w (target v)) as [V D].
  refine (conj _ (conj D (conj _ _))).
  - exact (keeps_contents _ _ (keeps_acquire w (target v))).
  - rewrite pointee_declare, V, Nat.eqb_refl. symmetry. apply var_pointee. assumption.
  - intros h H. rewrite pointee_declare, V. apply Nat.eqb_neq in H. rewrite H. apply pointee_vars. exact V.
Qed.

Lemma move_lemma w t g w' a : exec w (Move t g) = Done w' a ->
  contents w' = contents w /\ deleted w' = deleted w /\ pointee w' (List.length (variables w)) = pointee w g /\
  (forall h, h <> List.length (variables w) -> h <> g -> pointee w' h = pointee w h) /\
  (static_of w g = Some t \/ moves = true -> pointee w' g = Some None) /\
  (static_of w g <> Some t -> moves = false -> pointee w' g = pointee w g).
Proof.
  cbn [Heritable_model.exec]. intro E. cases E; injection E as <- <-.
  - assert (L : g <> List.length (variables w)). { intros ->. apply var_nth in Heqo. pose proof (proj2 (nth_error_None (variables w) (List.length (variables w))) (le_n _)). congruence. }
    refine (conj _ (conj _ (conj _ (conj _ (conj _ _))))).
    + unfold contents, declare; sf. rewrite put_objects. reflexivity.
    + unfold declare, put; sf. rewrite Heqo. reflexivity.
    + rewrite pointee_declare, length_put, Nat.eqb_refl. symmetry. apply var_pointee. assumption.
    + intros h H1 H2. rewrite pointee_declare, length_put, (proj2 (Nat.eqb_neq _ _) H1), (pointee_put _ _ _ _ _ Heqo), (proj2 (Nat.eqb_neq _ _) H2). reflexivity.
    + intros _. rewrite pointee_declare, length_put, (proj2 (Nat.eqb_neq _ _) L), (pointee_put _ _ _ _ _ Heqo), Nat.eqb_refl. reflexivity.
    + intros N M. exfalso. apply orb_true_iff in Heqb1 as [Q|Q]; [|congruence]. apply same_eq in Q. apply N. unfold static_of. rewrite (var_nth _ _ _ Heqo). congruence.
  - destruct (acquire_vars w (target v)) as [V D]. apply orb_false_iff in Heqb1 as [Q M].
    assert (L : g <> List.length (variables w)). { intros ->. apply var_nth in Heqo. pose proof (proj2 (nth_error_None (variables w) (List.length (variables w))) (le_n _)). congruence. }
    refine (conj _ (conj D (conj _ (conj _ (conj _ _))))).
    + exact (keeps_contents _ _ (keeps_acquire w (target v))).
    + rewrite pointee_declare, V, Nat.eqb_refl. symmetry. apply var_pointee. assumption.
    + intros h H _. rewrite pointee_declare, V. apply Nat.eqb_neq in H. rewrite H. apply pointee_vars. exact V.
    + intros [S|S]; [|congruence]. unfold static_of in S. rewrite (var_nth _ _ _ Heqo) in S. injection S as S. unfold same in Q. rewrite S, derives_refl in Q. discriminate Q.
    + intros _ _. rewrite pointee_declare, V, (proj2 (Nat.eqb_neq _ _) L). apply pointee_vars. exact V.
Qed.

Lemma assign_lemma w h g w' a : exec w (Assign h g) = Done w' a ->
  contents w' = contents w /\ pointee w' h = pointee w g /\ forall k, k <> h -> pointee w' k = pointee w k.
Proof.
  cbn [Heritable_model.exec]. unfold replace. intro E. cases E; injection E as <- <-.
  destruct (acquire_vars w (target v0)) as [V D]. destruct (keeps_release _ _ _ _ Heqo1) as [K R].
  assert (Hv : var (acquire w (target v0)) h = Some v) by (rewrite var_acquire; assumption).
  refine (conj _ (conj _ _)).
  - rewrite (keeps_contents _ _ K). unfold contents. rewrite put_objects. exact (keeps_contents _ _ (keeps_acquire w (target v0))).
  - rewrite (pointee_vars _ _ _ R), (pointee_put _ _ _ _ _ Hv), Nat.eqb_refl. symmetry. apply var_pointee. assumption.
  - intros k H. rewrite (pointee_vars _ _ _ R), (pointee_put _ _ _ _ _ Hv), (proj2 (Nat.eqb_neq _ _) H). apply pointee_vars. exact V.
Qed.

Lemma move_assign_lemma w h g w' a : exec w (MoveAssign h g) = Done w' a ->
  contents w' = contents w /\ pointee w' h = pointee w g /\ (forall k, k <> h -> k <> g -> pointee w' k = pointee w k) /\
  (h <> g -> static_of w g = static_of w h \/ moves = true -> pointee w' g = Some None) /\
  (h <> g -> static_of w g <> static_of w h -> moves = false -> pointee w' g = pointee w g).
Proof.
  cbn [Heritable_model.exec]. unfold replace. intro E. cases E; injection E as <- <-.
  - apply Nat.eqb_eq in Heqb1. subst g. refine (conj eq_refl (conj eq_refl (conj (fun _ _ _ => eq_refl) (conj _ _)))); congruence.
  - apply Nat.eqb_neq in Heqb1. destruct (keeps_release _ _ _ _ Heqo1) as [K R].
    assert (Hv : var (put w g None) h = Some v) by (rewrite var_put_other by exact Heqb1; assumption).
    refine (conj _ (conj _ (conj _ (conj _ _)))).
    + rewrite (keeps_contents _ _ K). unfold contents. rewrite !put_objects. reflexivity.
    + rewrite (pointee_vars _ _ _ R), (pointee_put _ _ _ _ _ Hv), Nat.eqb_refl. symmetry. apply var_pointee. assumption.
    + intros k H1 H2. rewrite (pointee_vars _ _ _ R), (pointee_put _ _ _ _ _ Hv), (proj2 (Nat.eqb_neq _ _) H1), (pointee_put _ _ _ _ _ Heqo0), (proj2 (Nat.eqb_neq _ _) H2). reflexivity.
    + intros H _. rewrite (pointee_vars _ _ _ R), (pointee_put _ _ _ _ _ Hv), (proj2 (Nat.eqb_neq g h)), (pointee_put _ _ _ _ _ Heqo0), Nat.eqb_refl by congruence. reflexivity.
    + intros H N M. exfalso. apply orb_true_iff in Heqb2 as [Q|Q]; [|congruence]. apply same_eq in Q. apply N. unfold static_of. rewrite (var_nth _ _ _ Heqo), (var_nth _ _ _ Heqo0). congruence.
  - apply Nat.eqb_neq in Heqb1. destruct (acquire_vars w (target v0)) as [V D]. destruct (keeps_release _ _ _ _ Heqo1) as [K R]. apply orb_false_iff in Heqb2 as [Q M].
    assert (Hv : var (acquire w (target v0)) h = Some v) by (rewrite var_acquire; assumption).
    refine (conj _ (conj _ (conj _ (conj _ _)))).
    + rewrite (keeps_contents _ _ K). unfold contents. rewrite put_objects. exact (keeps_contents _ _ (keeps_acquire w (target v0))).
    + rewrite (pointee_vars _ _ _ R), (pointee_put _ _ _ _ _ Hv), Nat.eqb_refl. symmetry. apply var_pointee. assumption.
    + intros k H _. rewrite (pointee_vars _ _ _ R), (pointee_put _ _ _ _ _ Hv), (proj2 (Nat.eqb_neq _ _) H). apply pointee_vars. exact V.
    + intros _ [S|S]; [|congruence]. unfold static_of in S. rewrite (var_nth _ _ _ Heqo), (var_nth _ _ _ Heqo0) in S. injection S as S. unfold same in Q. rewrite S, derives_refl in Q. discriminate Q.
    + intros H _ _. rewrite (pointee_vars _ _ _ R), (pointee_put _ _ _ _ _ Hv), (proj2 (Nat.eqb_neq g h)) by congruence. apply pointee_vars. exact V.
Qed.

Lemma reads_lemma w h z : reads virtual moves w h z <-> exists i, pointee w h = Some (Some i) /\ nth_error (contents w) i = Some z.
Proof.
  unfold reads, pointee, contents. cbn [Heritable_model.exec]. unfold look, var, deref. destruct (nth_error (variables w) h) as [[v|]|].
  - destruct (target v) as [k|].
    + split.
      * intro E. exists k. split; [reflexivity|]. rewrite nth_error_map. destruct (nth_error (objects w) k) as [o|]; [|discriminate]. injection E as <-. reflexivity.
      * intros (i & E & C). injection E as <-. rewrite nth_error_map in C. destruct (nth_error (objects w) k) as [o|]; [|discriminate]. injection C as <-. reflexivity.
    + split; [discriminate|intros (i & E & _); discriminate].
  - split; [discriminate|intros (i & E & _); discriminate].
  - split; [discriminate|intros (i & E & _); discriminate].
Qed.

Lemma refers_pointee w h i : refers w h i <-> pointee w h = Some (Some i).
Proof.
  unfold refers, pointee. destruct (nth_error (variables w) h) as [[v|]|].
  - split; [intros (x & E & T); injection E as <-; rewrite T; reflexivity|intro E; injection E as E; exists v; auto].
  - split; [intros (x & E & T); discriminate|discriminate].
  - split; [intros (x & E & T); discriminate|discriminate].
Qed.

Lemma set_lemma w h z w' a : exec w (Set_ h z) = Done w' a ->
  deleted w' = deleted w /\ (forall g, pointee w' g = pointee w g) /\
  forall g, (together w h g -> reads virtual moves w' g z) /\ (~ together w h g -> forall y, reads virtual moves w' g y <-> reads virtual moves w g y).
Proof.
  cbn [Heritable_model.exec]. intro E. cases E. injection E as <- <-. apply var_pointee in Heqo. rewrite Heqo0 in Heqo.
  refine (conj eq_refl (conj (fun _ => eq_refl) _)). intro g. split.
  - intros (i & H1 & H2). apply refers_pointee in H1, H2. apply reads_lemma. assert (i = n) by congruence. subst i. exists n. split; [exact H2|].
    unfold contents; sf. rewrite nth_error_map, (nth_upd_same _ _ _ _ Heqo1). reflexivity.
  - intros N y. rewrite !reads_lemma. unfold contents; sf.
    assert (Q : forall i, pointee w g = Some (Some i) -> i <> n). { intros i H ->. apply N. exists n. split; apply refers_pointee; assumption. }
    split; intros (i & H1 & H2); exists i; (split; [exact H1|]); specialize (Q _ H1); rewrite nth_error_map in *; rewrite nth_upd_other in * by congruence; exact H2.
Qed.

(** types *)
Lemma typed_keeps w w' : typed w -> keeps w w' -> variables w' = variables w -> typed w'.
Proof.
  intros T [_ K] V h v i Hh Ht. rewrite V in Hh. destruct (T _ _ _ Hh Ht) as (o & Ho & D). destruct (K _ _ Ho) as (o' & Ho' & A & _). exists o'. split; [exact Ho'|]. rewrite A. exact D.
Qed.
Definition fits (w : world) (i : option nat) (t : class) : Prop := forall k, i = Some k -> exists o, nth_error (objects w) k = Some o /\ derives (dynamic o) t = true.
Lemma cast_fits w i t : cast_ok w i t = true -> fits w i t.
Proof. intros H k ->. cbn [cast_ok] in H. destruct (nth_error (objects w) k) as [o|]; [|discriminate]. exists o. auto. Qed.
Lemma fits_keeps w w' i t : fits w i t -> keeps w w' -> fits w' i t.
Proof. intros F [_ K] k H. destruct (F _ H) as (o & Ho & D). destruct (K _ _ Ho) as (o' & Ho' & A & _). exists o'. rewrite A. auto. Qed.
Lemma typed_put w h v i : typed w -> var w h = Some v -> fits w i (static v) -> typed (put w h i).
Proof.
  intros T H F g x k Hg Hk. rewrite put_objects. unfold put in Hg. rewrite H in Hg. sf. apply nth_upd in Hg as [[-> E]|[D Hg]].
  - injection E as ->. sf. exact (F _ Hk).
  - exact (T _ _ _ Hg Hk).
Qed.
Lemma typed_declare w t i : typed w -> fits w i t -> typed (declare w t i).
Proof.
  intros T F g x k Hg Hk. unfold declare in *; sf. destruct (Nat.lt_ge_cases g (List.length (variables w))) as [L|L].
  - rewrite nth_error_app1 in Hg by exact L. exact (T _ _ _ Hg Hk).
  - rewrite nth_error_app2 in Hg by exact L. destruct (g - List.length (variables w)) as [|[|?]]; try discriminate Hg. injection Hg as <-. exact (F _ Hk).
Qed.
Lemma fits_none w t : fits w None t.
Proof. intros k H. discriminate H. Qed.

Lemma typed_exec w o w' a : typed w -> exec w o = Done w' a -> typed w'.
Proof.
  intros T E. destruct o; cbn [Heritable_model.exec] in E; unfold look, look2, replace in E; cases E; injection E as <- <-; try exact T.
  - apply typed_declare.
    + intros h v i Hh Ht. destruct (T _ _ _ Hh Ht) as (o & Ho & D). exists o. sf. rewrite nth_error_app1 by (apply nth_error_Some; congruence). auto.
    + intros k E. injection E as <-. sf. eexists. rewrite nth_error_app2, Nat.sub_diag by lia. split; [reflexivity|assumption].
  - apply typed_declare; [|eapply fits_keeps; [apply cast_fits; eassumption|apply keeps_acquire]].
    eapply typed_keeps; [exact T|apply keeps_acquire|apply acquire_vars].
  - apply typed_declare; [eapply typed_put; eauto using fits_none|]. eapply fits_keeps; [apply cast_fits; eassumption|apply keeps_same_objects, put_objects].
  - apply typed_declare; [|eapply fits_keeps; [apply cast_fits; eassumption|apply keeps_acquire]].
    eapply typed_keeps; [exact T|apply keeps_acquire|apply acquire_vars].
  - destruct (keeps_release _ _ _ _ Heqo1) as [K R]. eapply typed_keeps; [|exact K|exact R].
    eapply typed_put; [eapply typed_keeps; [exact T|apply keeps_acquire|apply acquire_vars]|rewrite var_acquire; eassumption|].
    eapply fits_keeps; [apply cast_fits; eassumption|apply keeps_acquire].
  - destruct (keeps_release _ _ _ _ Heqo1) as [K R]. eapply typed_keeps; [|exact K|exact R]. apply Nat.eqb_neq in Heqb1.
    eapply typed_put; [eapply typed_put; eauto using fits_none|rewrite var_put_other by exact Heqb1; eassumption|].
    eapply fits_keeps; [apply cast_fits; eassumption|apply keeps_same_objects, put_objects].
  - destruct (keeps_release _ _ _ _ Heqo1) as [K R]. eapply typed_keeps; [|exact K|exact R].
    eapply typed_put; [eapply typed_keeps; [exact T|apply keeps_acquire|apply acquire_vars]|rewrite var_acquire; eassumption|].
    eapply fits_keeps; [apply cast_fits; eassumption|apply keeps_acquire].
  - destruct (keeps_release _ _ _ _ Heqo0) as [K R]. eapply typed_keeps; [|exact K|exact R].
    intros g v' i Hg Ht. sf. apply nth_upd in Hg as [[-> E]|[D Hg]]; [discriminate|exact (T _ _ _ Hg Ht)].
  - intros g v' i Hg Ht. sf. destruct (T _ _ _ Hg Ht) as (p & Hp & D). destruct (Nat.eq_dec n i) as [<-|N].
    + rewrite (nth_upd_same _ _ _ _ Heqo1). eexists. split; [reflexivity|]. sf. assert (p = o) by congruence. subst. exact D.
    + rewrite nth_upd_other by exact N. exists p. auto.
Qed.

Lemma reached_inv w : reached virtual moves w -> bal w None /\ typed w.
Proof.
  induction 1 as [|w o w' a R IH E].
  - split.
    + unfold bal, count; sf. cbn. repeat split; try constructor; intros; try (destruct k; discriminate); try contradiction; lia.
    + intros h v i H. destruct h; discriminate H.
  - destruct IH as [B T]. split; [eapply bal_exec; eauto|eapply typed_exec; eauto].
Qed.

Lemma count_refers w i : count w i <> 0 <-> exists h, refers w h i.
Proof.
  unfold count. split.
  - intro H. destruct (Nat.eq_dec (number_of (points i) (variables w)) 0) as [|_]; [contradiction|].
    assert (Q : exists h x, nth_error (variables w) h = Some x /\ points i x <> 0).
    { clear -H. induction (variables w) as [|x l IH]; [cbn in H; contradiction H; reflexivity|].
      destruct (Nat.eq_dec (points i x) 0) as [Z|Z]; [|exists 0, x; auto].
      destruct IH as (h & y & Hh & Hy); [unfold number_of in *; cbn in H; lia|]. exists (S h), y. auto. }
    destruct Q as (h & [v|] & Hh & P); [|contradiction P; reflexivity]. exists h, v. split; [exact Hh|]. cbn [points] in P. destruct (target v) as [k|]; cbn [hold] in P; [|contradiction P; reflexivity].
    destruct (Nat.eqb_spec k i); [congruence|contradiction P; reflexivity].
  - intros (h & v & H & T). pose proof (number_ge (points i) _ _ _ H) as G. cbn [points] in G. rewrite T, hold_same in G. lia.
Qed.

Lemma lives_lemma w : reached virtual moves w -> NoDup (deleted w) /\ forall i, lives w i <-> exists h, refers w h i.
Proof.
  intro R. destruct (reached_inv _ R) as [(B1 & B2 & B3 & B4) T]. split; [exact B4|]. intro i. rewrite <- count_refers. unfold lives. rewrite B3. cbn [hold] in *. rewrite Nat.add_0_r.
  split.
  - intros [L N] Q. apply N. auto.
  - intro Q. split; [|tauto]. destruct (Nat.lt_ge_cases i (List.length (objects w))) as [|L]; [assumption|]. specialize (B2 _ L). lia.
Qed.

Lemma all_deleted w : reached virtual moves w -> (forall h, nth_error (variables w) h = None \/ nth_error (variables w) h = Some None) -> forall i, i < List.length (objects w) -> In i (deleted w).
Proof.
  intros R N i L. destruct (in_dec Nat.eq_dec i (deleted w)) as [|Q]; [assumption|]. exfalso.
  destruct (proj1 (proj2 (lives_lemma _ R) i) (conj L Q)) as (h & v & H & _). destruct (N h); congruence.
Qed.

(** casts *)
Lemma casts_lemma w h u z : reached virtual moves w -> reads virtual moves w h z -> 
  exists b, exec w (CanCast u h) = Done w (Answer b) /\ exec w (DynCast u h) = Done w (if b then Value z else BadCast) /\
    (forall c, static_of w h = Some c -> derives c u = true -> b = true).
Proof.
  intros R H. destruct (reached_inv _ R) as [_ T]. unfold reads in H. cbn [Heritable_model.exec] in *. unfold look in *. destruct (var w h) as [v|] eqn:Ev; [|discriminate].
  destruct (deref w v) as [o|] eqn:Eo; [|discriminate]. injection H as <-. exists (derives (dynamic o) u). refine (conj eq_refl (conj eq_refl _)).
  intros c S D. unfold static_of in S. rewrite (var_nth _ _ _ Ev) in S. injection S as <-. unfold deref in Eo. destruct (target v) as [k|] eqn:Et; [|discriminate].
  destruct (T _ _ _ (var_nth _ _ _ Ev) Et) as (p & Hp & Dp). assert (p = o) by congruence. subst. exact (derives_trans _ _ _ Dp D).
Qed.

(** careful programs *)
Definition deletable (w : world) : Prop := forall i o, nth_error (objects w) i = Some o -> same (dynamic o) (deleter o) = true \/ virtual (deleter o) = true.
Lemma deletable_keeps w w' : deletable w -> keeps w w' -> deletable w'.
Proof.
  intros D [L K] i o' H. destruct (nth_error (objects w) i) as [o|] eqn:E.
  - destruct (K _ _ E) as (p & Hp & A1 & A2 & _). assert (p = o') by congruence. subst p. rewrite A1, A2. exact (D _ _ E).
  - apply nth_error_None in E. assert (i < List.length (objects w')) by (apply nth_error_Some; congruence). lia.
Qed.
Lemma deletable_exec w o w' a : deletable w -> careful virtual w o -> exec w o = Done w' a -> deletable w'.
Proof.
  intros D C E. destruct o; cbn [Heritable_model.exec] in E; unfold look, look2, replace in E; cases E; injection E as <- <-; try exact D.
  - intros i o H. unfold declare in H; sf. destruct (Nat.lt_ge_cases i (List.length (objects w))) as [L|L].
    + rewrite nth_error_app1 in H by exact L. exact (D _ _ H).
    + rewrite nth_error_app2 in H by exact L. destruct (i - List.length (objects w)) as [|[|?]]; try discriminate H. injection H as <-. sf.
      destruct C as [_ [->|C]]; [left; unfold same; rewrite derives_refl; reflexivity|right; exact C].
  - exact (deletable_keeps _ _ D (keeps_acquire w (target v))).
  - apply (deletable_keeps _ _ D). apply keeps_same_objects. unfold declare; sf. apply put_objects.
  - exact (deletable_keeps _ _ D (keeps_acquire w (target v))).
  - destruct (keeps_release _ _ _ _ Heqo1) as [K R]. apply (deletable_keeps _ _ D). eapply keeps_trans; [apply keeps_acquire|]. eapply keeps_trans; [|exact K]. apply keeps_same_objects, put_objects.
  - destruct (keeps_release _ _ _ _ Heqo1) as [K R]. apply (deletable_keeps _ _ D). eapply keeps_trans; [|exact K]. apply keeps_same_objects. rewrite !put_objects. reflexivity.
  - destruct (keeps_release _ _ _ _ Heqo1) as [K R]. apply (deletable_keeps _ _ D). eapply keeps_trans; [apply keeps_acquire|]. eapply keeps_trans; [|exact K]. apply keeps_same_objects, put_objects.
  - destruct (keeps_release _ _ _ _ Heqo0) as [K R]. apply (deletable_keeps _ _ D). eapply keeps_trans; [|exact K]. apply keeps_same_objects. reflexivity.
  - intros i p H. sf. apply nth_upd in H as [[-> ->]|[N H]]; [sf; exact (D _ _ Heqo1)|exact (D _ _ H)].
Qed.
Lemma carefully_inv w : carefully virtual moves w -> reached virtual moves w /\ deletable w.
Proof.
  induction 1 as [|w o w' a R [IH1 IH2] C E]; [split; [constructor|intros i o H; destruct i; discriminate H]|].
  split; [eapply re_exec; eauto|eapply deletable_exec; eauto].
Qed.
Lemma release_some w t : deletable w -> (forall k, t = Some k -> exists o, nth_error (objects w) k = Some o) -> release virtual w t <> None.
Proof.
  intros D F. destruct t as [k|]; cbn [release]; [|discriminate]. destruct (F _ eq_refl) as (o & H). rewrite H.
  destruct (owners o) as [|[|m]]; try discriminate. destruct (D _ _ H) as [->| ->]; [discriminate|]. rewrite orb_true_r. discriminate.
Qed.
Lemma typed_target w h v k : typed w -> var w h = Some v -> target v = Some k -> exists o, nth_error (objects w) k = Some o.
Proof. intros T H E. destruct (T _ _ _ (var_nth _ _ _ H) E) as (o & Ho & _). eauto. Qed.
Lemma cast_up w g x t : typed w -> var w g = Some x -> upcast w g t -> cast_ok w (target x) t = true.
Proof.
  intros T H U. unfold cast_ok. destruct (target x) as [k|] eqn:E; [|reflexivity]. destruct (T _ _ _ (var_nth _ _ _ H) E) as (o & Ho & D). rewrite Ho.
  apply (derives_trans _ _ _ D). apply U. unfold static_of. rewrite (var_nth _ _ _ H). reflexivity.
Qed.
Lemma has_deref w h v : typed w -> var w h = Some v -> has_object w h -> deref w v <> None.
Proof.
  intros T H (i & P). apply var_pointee in H as Q. assert (E : target v = Some i) by congruence. destruct (typed_target _ _ _ _ T H E) as (o & Ho). unfold deref. rewrite E, Ho. discriminate.
Qed.

Lemma static_var w h v : var w h = Some v -> static_of w h = Some (static v).
Proof. intro H. unfold static_of. rewrite (var_nth _ _ _ H). reflexivity. Qed.

Lemma careful_defined w o : carefully virtual moves w -> careful virtual w o -> exec w o <> Undefined.
Proof.
  intros R C E. destruct (carefully_inv _ R) as [R' D]. destruct (reached_inv _ R') as [_ T].
  assert (rel : forall w1 h v, keeps w w1 -> var w h = Some v -> release virtual w1 (target v) <> None).
  { intros w1 h v K H. apply release_some; [exact (deletable_keeps _ _ D K)|]. intros k Hk. destruct (typed_target _ _ _ _ T H Hk) as (p & Hp). destruct K as [_ K]. destruct (K _ _ Hp) as (q & Hq & _). eauto. }
  destruct o; cbn [Heritable_model.exec careful] in *; unfold look, look2, replace in E; cases E.
  - destruct C. congruence.
  - pose proof (cast_up _ _ _ _ T Heqo C). congruence.
  - pose proof (cast_up _ _ _ _ T Heqo C). congruence.
  - revert Heqo1. eapply rel; [|eassumption]. eapply keeps_trans; [apply keeps_acquire|apply keeps_same_objects, put_objects].
  - pose proof (cast_up _ _ _ _ T Heqo0 (C _ (static_var _ _ _ Heqo))). congruence.
  - revert Heqo1. eapply rel; [|eassumption]. apply keeps_same_objects. rewrite !put_objects. reflexivity.
  - revert Heqo1. eapply rel; [|eassumption]. eapply keeps_trans; [apply keeps_acquire|apply keeps_same_objects, put_objects].
  - pose proof (cast_up _ _ _ _ T Heqo0 (C _ (static_var _ _ _ Heqo))). congruence.
  - revert Heqo0. eapply rel; [|eassumption]. apply keeps_same_objects. reflexivity.
  - exact (has_deref _ _ _ T Heqo C Heqo0).
  - destruct (typed_target _ _ _ _ T Heqo Heqo0). congruence.
  - destruct C as (i & P). apply var_pointee in Heqo. congruence.
  - destruct C as (C1 & C2 & C3). exact (has_deref _ _ _ T Heqo0 C2 Heqo2).
  - destruct C as (C1 & C2 & C3). exact (has_deref _ _ _ T Heqo C1 Heqo1).
  - destruct C as (C1 & C2 & C3). pose proof (cast_up _ _ _ _ T Heqo0 (C3 _ (static_var _ _ _ Heqo))). congruence.
  - exact (has_deref _ _ _ T Heqo C Heqo0).
  - destruct C as (C1 & C2 & C3). exact (has_deref _ _ _ T Heqo0 C2 Heqo2).
  - destruct C as (C1 & C2 & C3). exact (has_deref _ _ _ T Heqo C1 Heqo1).
  - destruct C as (C1 & C2 & C3). pose proof (cast_up _ _ _ _ T Heqo0 (C3 _ (static_var _ _ _ Heqo))). congruence.
  - exact (has_deref _ _ _ T Heqo C Heqo0).
  - exact (has_deref _ _ _ T Heqo C Heqo0).
  - exact (has_deref _ _ _ T Heqo C Heqo0).
Qed.

Lemma reads_var w h z : reads virtual moves w h z -> exists v o, var w h = Some v /\ deref w v = Some o /\ content o = z.
Proof.
  unfold reads. cbn [Heritable_model.exec]. unfold look. destruct (var w h) as [v|]; [|discriminate]. destruct (deref w v) as [o|] eqn:E; [|discriminate].
  intro H. injection H as H. exists v, o. auto.
Qed.
Lemma compare_lemma w h g y z : reached virtual moves w -> reads virtual moves w h y -> reads virtual moves w g z -> static_of w h = static_of w g ->
  exec w (Equal h g) = Done w (Answer (Z.eqb y z)) /\ exec w (Less h g) = Done w (Answer (Z.ltb y z)) /\
  exec w (EqualTo h z) = Done w (Answer (Z.eqb y z)) /\ exec w (LessTo h z) = Done w (Answer (Z.ltb y z)).
Proof.
  intros R Hy Hz S. destruct (reached_inv _ R) as [_ T]. destruct (reads_var _ _ _ Hy) as (v & o & Hv & Ho & <-). destruct (reads_var _ _ _ Hz) as (x & p & Hx & Hp & <-).
  rewrite (static_var _ _ _ Hv), (static_var _ _ _ Hx) in S. injection S as S. cbn [Heritable_model.exec]. unfold look, look2. rewrite Hv, Hx. unfold compiles. rewrite S, derives_refl. cbn [orb].
  rewrite (cast_up _ _ _ _ T Hx) by (intros c Hc; rewrite (static_var _ _ _ Hx) in Hc; injection Hc as <-; apply derives_refl). rewrite Ho, Hp. repeat split.
Qed.
End Steps.
