From Coq Require Import ZArith Bool Lia ZifyBool.
From Verif Require Import Fuzzy_model Fuzzy_spec.
Local Open Scope Z_scope.

Section Proofs.
Variables (T : Type) (eqT : T -> T -> bool).
Hypothesis eqT_ok : forall x y, eqT x y = true <-> x = y.

Lemma fuzzy_eq_iff a b : fuzzy_eq eqT a b = true <->
  (level_ a < 20 /\ level_ b < 20) \/ (20 <= level_ a /\ level_ a = level_ b /\ value_ a = value_ b).
Proof.
  unfold fuzzy_eq, is_set, fuzzy_level_fuzzy.
  destruct (20 <=? level_ a) eqn:Ea, (20 <=? level_ b) eqn:Eb; cbn [negb andb]; rewrite ?andb_true_iff, ?eqT_ok; try lia.
  - split; [intros [E H]; right; repeat split; [lia|lia|exact H]|intros [H|(_ & E & H)]; [lia|split; [lia|exact H]]].
Qed.

Lemma fuzzy_eq_refl a : fuzzy_eq eqT a a = true.
Proof. apply fuzzy_eq_iff. destruct (Z_lt_le_dec (level_ a) 20); [left|right]; auto. Qed.

Lemma fuzzy_eq_sym a b : fuzzy_eq eqT a b = fuzzy_eq eqT b a.
Proof.
  destruct (fuzzy_eq eqT a b) eqn:E1, (fuzzy_eq eqT b a) eqn:E2; try reflexivity; exfalso.
  - apply fuzzy_eq_iff in E1. assert (fuzzy_eq eqT b a = true); [|congruence]. apply fuzzy_eq_iff.
    destruct E1 as [H|(H1 & H2 & H3)]; [left; lia|right; repeat split; [lia|lia|congruence]].
  - apply fuzzy_eq_iff in E2. assert (fuzzy_eq eqT a b = true); [|congruence]. apply fuzzy_eq_iff.
    destruct E2 as [H|(H1 & H2 & H3)]; [left; lia|right; repeat split; [lia|lia|congruence]].
Qed.

Lemma fuzzy_eq_trans a b c : fuzzy_eq eqT a b = true -> fuzzy_eq eqT b c = true -> fuzzy_eq eqT a c = true.
Proof.
  rewrite !fuzzy_eq_iff. intros [H|(H1 & H2 & H3)] [K|(K1 & K2 & K3)]; try (left; lia); try lia.
  right. repeat split; [lia|lia|congruence].
Qed.

Lemma fuzzy_equivalence : (forall a, fuzzy_eq eqT a a = true) /\
  (forall a b, fuzzy_eq eqT a b = true -> fuzzy_eq eqT b a = true) /\
  (forall a b c, fuzzy_eq eqT a b = true -> fuzzy_eq eqT b c = true -> fuzzy_eq eqT a c = true) /\
  (forall a b, fuzzy_neq eqT a b = true <-> fuzzy_eq eqT a b = false).
Proof.
  split; [exact fuzzy_eq_refl|]. split; [intros a b H; rewrite fuzzy_eq_sym; exact H|].
  split; [exact fuzzy_eq_trans|]. intros a b. unfold fuzzy_neq. destruct (fuzzy_eq eqT a b); cbn; intuition discriminate.
Qed.

Lemma fuzzy_doc_partial a b :
  (level_ a < 0 \/ 20 <= level_ a) -> (level_ b < 0 \/ 20 <= level_ b) ->
  (20 <= level_ a -> 20 <= level_ b -> level_ a = level_ b) ->
  (fuzzy_eq eqT a b = true <-> documented_eq a b).
Proof.
  intros Ha Hb Hl. rewrite fuzzy_eq_iff. unfold documented_eq, documented_valid, documented_set.
  destruct (Z_lt_le_dec (level_ a) 0), (Z_lt_le_dec (level_ b) 0); try (intuition lia).
Qed.

Lemma fuzzy_value_lemma a v : fuzzy_eq_value eqT a v = true <-> documented_valid a /\ value_ a = v.
Proof.
  unfold fuzzy_eq_value, is_valid, documented_valid, fuzzy_level_default.
  destruct (0 <=? level_ a) eqn:E; cbn [negb]; [rewrite eqT_ok; intuition lia|split; [discriminate|intros [H _]; lia]].
Qed.
Lemma fuzzy_values_lemma a v : (fuzzy_eq_value eqT a v = true <-> documented_valid a /\ value_ a = v) /\ (fuzzy_neq_value eqT a v = true <-> ~ (documented_valid a /\ value_ a = v)).
Proof.
  split; [apply fuzzy_value_lemma|]. rewrite <- fuzzy_value_lemma. unfold fuzzy_neq_value. destruct (fuzzy_eq_value eqT a v); cbn [negb]; intuition discriminate.
Qed.
End Proofs.

Lemma fuzzy_levels_differ : forall (T : Type) (eqT : T -> T -> bool) (v : T), exists a b : fuzzy T,
  documented_eq a b /\ fuzzy_eq eqT a b = false.
Proof.
  intros T eqT v. exists {| value_ := v; level_ := 40 |}, {| value_ := v; level_ := 60 |}.
  split; [|reflexivity]. right. unfold documented_set. cbn. repeat split; intro; discriminate.
Qed.

Lemma fuzzy_defaults_equal : forall (T : Type) (eqT : T -> T -> bool) (v w : T), v <> w -> exists a b : fuzzy T,
  documented_valid a /\ documented_valid b /\ value_ a <> value_ b /\ ~ documented_eq a b /\ fuzzy_eq eqT a b = true.
Proof.
  intros T eqT v w H. exists {| value_ := v; level_ := 0 |}, {| value_ := w; level_ := 0 |}.
  unfold documented_eq, documented_valid, documented_set. cbn. repeat split; try lia; try assumption.
Qed.

Lemma level_names_lemma : forall l, get_level_as_str l <> [] <-> In l [-20; 0; 20; 40; 60].
Proof.
  intros l. unfold get_level_as_str, fuzzy_level_unset, fuzzy_level_default, fuzzy_level_fuzzy, fuzzy_level_set, fuzzy_level_hard.
  cbn [In]. destruct (l =? -20) eqn:E1; [split; [lia|discriminate]|].
  destruct (l =? 0) eqn:E2; [split; [lia|discriminate]|]. destruct (l =? 20) eqn:E3; [split; [lia|discriminate]|].
  destruct (l =? 40) eqn:E4; [split; [lia|discriminate]|]. destruct (l =? 60) eqn:E5; [split; [lia|discriminate]|].
  split; [congruence|lia].
Qed.
Lemma level_texts_lemma : forall l t, t <> [] -> get_level_as_str l = t <-> In (l, t) [(-20, s "UNSET"); (0, s "DEFAULT"); (20, s "FUZZY"); (40, s "SET"); (60, s "HARD")].
Proof.
  intros l t N. split.
  - intros <-. apply level_names_lemma in N. destruct N as [<-|[<-|[<-|[<-|[<-|[]]]]]]; [left|right; left|right; right; left|right; right; right; left|right; right; right; right; left]; reflexivity.
  - intros [E|[E|[E|[E|[E|[]]]]]]; pose proof (f_equal fst E) as A; pose proof (f_equal snd E) as B; cbn [fst snd] in A, B; subst l t; reflexivity.
Qed.

Lemma run_keeps_value (T : Type) : forall (cs : list (fuzzy_call T)) f, (forall c, In c cs -> keeps_value c) -> value_ (fuzzy_run f cs) = value_ f.
Proof.
  induction cs as [|c cs IH]; intros f H; [reflexivity|]. cbn. change (value_ (fuzzy_run (fuzzy_step f c) cs) = value_ f).
  rewrite IH by (intros c' Hc'; apply H; right; exact Hc'). specialize (H c (or_introl eq_refl)). destruct c; [contradiction|reflexivity|reflexivity].
Qed.

Lemma fuzzy_history_lemma : forall (T : Type) (f : fuzzy T) before,
  (forall after v l, (forall c, In c after -> keeps_value c) -> value_ (fuzzy_run f (before ++ SetValue v l :: after)) = v) /\
  ((forall c, In c before -> keeps_value c) -> value_ (fuzzy_run f before) = value_ f) /\
  (forall v l, level_ (fuzzy_run f (before ++ [SetValue v l])) = l) /\
  (forall l, level_ (fuzzy_run f (before ++ [SetLevel l])) = l) /\
  (forall eqT v, let u := fuzzy_run f (before ++ [Unset]) in
    ~ documented_valid u /\ ~ documented_set u /\ get_level_as_str (level_ u) = s "UNSET" /\ fuzzy_eq_value eqT u v = false /\ is_valid u = false /\ is_set u = false).
Proof.
  intros T f before. unfold fuzzy_run. split; [|split; [|split; [|split]]].
  - intros after v l H. rewrite fold_left_app. cbn. exact (run_keeps_value T after _ H).
  - intros H. exact (run_keeps_value T before f H).
  - intros v l. rewrite fold_left_app. reflexivity.
  - intros l. rewrite fold_left_app. reflexivity.
  - intros eqT v. rewrite fold_left_app. cbn. unfold documented_valid, documented_set. cbn. repeat split; try reflexivity; intros H; apply H; reflexivity.
Qed.
