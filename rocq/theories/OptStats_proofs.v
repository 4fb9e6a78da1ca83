From Coq Require Import Lia ZifyBool ZifyNat ZifyN Permutation.
From Verif Require Import OptParser_spec OptParser_proofs OptStore_proofs OptUse_proofs.

(** * The second reading of an element *)
Section Element.
Variable usage : list descriptor.
Variable min : Z.
Variable sm : bool.

Lemma search_in f l d r : search f l = Some (d, r) -> In d l.
Proof. intros H. apply search_some in H. destruct H as (a & -> & _). apply in_elt. Qed.
Lemma dummy_in d : find_dummy usage = Some d -> In d usage.
Proof. unfold find_dummy. destruct (search _ usage) as [[e r]|] eqn:S; [|discriminate]. intros [= <-]. exact (search_in _ _ _ _ S). Qed.
Lemma short_in c d : find_short usage c = Some d -> In d usage.
Proof. unfold find_short. destruct (search _ usage) as [[e r]|] eqn:S; [|discriminate]. intros [= <-]. exact (search_in _ _ _ _ S). Qed.
Lemma long_in n d : find_long usage min n = Some d -> In d usage.
Proof.
  unfold find_long. destruct (search (fun x => streq (longopt x) n) usage) as [[e r]|] eqn:S; [intros [= <-]; exact (search_in _ _ _ _ S)|].
  destruct (0 <? min)%Z; [|discriminate]. destruct (search (fun x => streqabbr (longopt x) n min) usage) as [[e r]|] eqn:S2; [|discriminate].
  destruct (search _ r); [discriminate|]. intros [= <-]. exact (search_in _ _ _ _ S2).
Qed.
Lemma or_dummy_in f d : (forall e, f = Some e -> In e usage) -> or_dummy usage f = Some d -> In d usage.
Proof. unfold or_dummy. destruct f as [e|]; [intros H [= <-]; now apply H|intros _; apply dummy_in]. Qed.

Lemma attached_none n : attached n = None -> ~ In "="%char n.
Proof. induction n as [|c r IH]; cbn; [tauto|]. destruct (Ascii.eqb_spec c "="); [discriminate|]. intros H [E|E]; [congruence|]. now apply IH. Qed.
Lemma bare_long n : attached n = None -> bare ("-"%char :: "-"%char :: n).
Proof. intros H. right. eexists. split; [reflexivity|]. intros [E|E]; [discriminate|]. now apply (attached_none n H). Qed.
Lemma bare_single n : attached n = None -> bare ("-"%char :: n).
Proof. intros H. right. eexists. split; [reflexivity|]. exact (attached_none n H). Qed.
Lemma bare_char c : bare [c].
Proof. left. now exists c. Qed.

Lemma until_equals_whole r : (~ In "="%char r -> until_equals r = length r) /\ (In "="%char r -> until_equals r < length r).
Proof.
  induction r as [|c r [I1 I2]]; cbn; [split; [reflexivity|tauto]|]. destruct (Ascii.eqb_spec c "=") as [->|N].
  - split; [tauto|]. intros _. apply Nat.lt_0_succ.
  - split; intros H; [f_equal; tauto|]. apply -> Nat.succ_lt_mono. apply I2. destruct H; [congruence|assumption].
Qed.
Lemma bare_optional n a : bare n -> Arg_Optional n a = ARG_IGNORE.
Proof.
  intros B. unfold Arg_Optional. replace (namelen n <? length n) with false; [now destruct a|]. symmetry. apply Nat.ltb_ge.
  destruct B as [[c ->]|[r [-> N]]]; unfold namelen; cbn [length].
  - now destruct (Ascii.eqb c "-").
  - rewrite Ascii.eqb_refl. rewrite (proj1 (until_equals_whole r) N). apply le_n.
Qed.
Lemma optional_lemma n a : n <> [] -> Arg_Optional n a = ARG_OK <-> a <> None /\ ~ bare n.
Proof.
  intros NE. split.
  - intros H. split; [destruct a; discriminate|]. intros B. rewrite (bare_optional n a B) in H. discriminate.
  - intros [A B]. destruct a as [x|]; [|congruence]. unfold Arg_Optional. replace (namelen n <? length n) with true; [reflexivity|].
    symmetry. apply Nat.ltb_lt. destruct n as [|c r]; [congruence|]. unfold namelen. cbn [length]. destruct (Ascii.eqb_spec c "-") as [->|N].
    + apply -> Nat.succ_lt_mono. apply (proj2 (until_equals_whole r)). destruct (in_dec ascii_dec "="%char r) as [J|J]; [exact J|].
      exfalso. apply B. right. now exists r.
    + destruct r as [|c' r]; [exfalso; apply B; left; now exists c|]. cbn. apply -> Nat.succ_lt_mono. apply Nat.lt_0_succ.
Qed.
Lemma usual_clear_cut us : Forall (fun d => usual (check_arg d)) us -> clear_cut us.
Proof.
  intros U d n I B. rewrite Forall_forall in U. destruct (U d I) as [->|[->|[->| ->]]].
  - left. intros a. now left.
  - left. intros a. right. exact (bare_optional n a B).
  - right. split; [reflexivity|]. intros x. now left.
  - right. split; [reflexivity|]. intros x. now right.
Qed.
Lemma usual_steady us : Forall (fun d => usual (check_arg d)) us -> steady us.
Proof.
  intros U d n x y I B H K. rewrite Forall_forall in U. destruct (U d I) as [E|[E|[E|E]]]; rewrite E in *; try discriminate H.
  - rewrite (bare_optional n _ B) in H. discriminate.
  - destruct K as [K|K]; discriminate K.
Qed.

(** [again x y]: what the two readings have in common *)
Definition no_more (ev ev' : list opt * fin) : Prop := length (fst ev') <= length (fst ev) /\ (snd ev' = Stop true -> snd ev = Stop true).
Definition settled (ev : list opt * fin) : Prop := snd ev <> Bad /\ snd ev <> Stop true.

Section Steady.
Hypothesis Hs : steady usage.
Lemma treat_steady f n x y : (forall e, f = Some e -> In e usage) -> bare n -> settled (treat_ev usage f n (Some x) true) ->
  no_more (treat_ev usage f n (Some x) true) (treat_ev usage f n (Some y) true).
Proof.
  intros Hf Hb. rewrite !treat_judged. unfold judged. destruct (or_dummy usage f) as [d|] eqn:D; [|intros _; split; cbn; [lia|discriminate]].
  pose proof (or_dummy_in f d Hf D) as I. pose proof (Hs d n y x I Hb) as H. unfold ignores in H. unfold settled, no_more.
  destruct (check_arg d n (Some x)), (check_arg d n (Some y)); cbn; intros (A & B); try (now elim A); try (now elim B); split; try lia; try discriminate; exfalso; apply H; auto.
Qed.
Lemma treat_absent f n y : snd (treat_ev usage f n None true) <> Bad ->
  length (fst (treat_ev usage f n (Some y) true)) <= length (fst (treat_ev usage f n None true)).
Proof.
  rewrite !treat_judged. destruct (or_dummy usage f) as [d|]; cbn [judged]; [|intros _; cbn; lia].
  destruct (check_arg d n None), (check_arg d n (Some y)); cbn; intros A; try (now elim A); lia.
Qed.
Lemma short_steady t x y : settled (short_ev usage t (Some x)) -> no_more (short_ev usage t (Some x)) (short_ev usage t (Some y)).
Proof.
  induction t as [|c r IH]; [intros _; split; cbn; [lia|discriminate]|]. cbn [short_ev]. destruct r as [|c' r].
  - pose proof (treat_steady (find_short usage c) [c] x y (fun e => short_in c e) (bare_char c)) as T.
    destruct (treat_ev usage (find_short usage c) [c] (Some x) true) as [o1 f1], (treat_ev usage (find_short usage c) [c] (Some y) true) as [o2 f2].
    intros S. assert (S' : settled (o1, f1)) by (destruct f1; [split; cbn; discriminate|exact S|exact S]). specialize (T S'). unfold no_more in *. cbn [short_ev] in *.
    destruct T as [T1 T2]. destruct f1, f2; cbn in *; rewrite ?app_nil_r; split; try lia; try discriminate; auto.
  - destruct (treat_ev usage (find_short usage c) (c :: c' :: r) (Some (c' :: r)) false) as [o1 [|k|]]; [|intros _; split; cbn; [lia|auto]|intros _; split; cbn; [lia|auto]].
    destruct (short_ev usage (c' :: r) (Some x)) as [o2 f2], (short_ev usage (c' :: r) (Some y)) as [o3 f3]. unfold settled, no_more in *. cbn in *. rewrite !app_length.
    intros S. specialize (IH S). destruct IH. split; [lia|assumption].
Qed.
Lemma short_absent t y : snd (short_ev usage t None) <> Bad -> length (fst (short_ev usage t (Some y))) <= length (fst (short_ev usage t None)).
Proof.
  induction t as [|c r IH]; [intros _; cbn; lia|]. cbn [short_ev]. destruct r as [|c' r].
  - pose proof (treat_absent (find_short usage c) [c] y) as T.
    destruct (treat_ev usage (find_short usage c) [c] None true) as [o1 f1], (treat_ev usage (find_short usage c) [c] (Some y) true) as [o2 f2]. cbn [short_ev] in *.
    cbn in T. intros S. assert (S' : f1 <> Bad) by (destruct f1; [discriminate|discriminate|exact S]). specialize (T S').
    destruct f1, f2; cbn; rewrite ?app_nil_r; exact T.
  - destruct (treat_ev usage (find_short usage c) (c :: c' :: r) (Some (c' :: r)) false) as [o1 [|k|]]; [|intros _; cbn; lia|intros _; cbn; lia].
    destruct (short_ev usage (c' :: r) None) as [o2 f2], (short_ev usage (c' :: r) (Some y)) as [o3 f3]. cbn in *. rewrite !app_length. intros S. specialize (IH S). lia.
Qed.
Lemma element_steady t x y : is_option t = true -> settled (element_ev usage min sm t (Some x)) -> no_more (element_ev usage min sm t (Some x)) (element_ev usage min sm t (Some y)).
Proof.
  intros Io. destruct t as [|d [|c n]]; try discriminate Io. cbn in Io. apply Ascii.eqb_eq in Io. subst d. cbn [element_ev].
  assert (G : forall f p m, (forall e, f = Some e -> In e usage) -> (attached m = None -> bare p) -> settled (long_ev usage f p m (Some x)) -> no_more (long_ev usage f p m (Some x)) (long_ev usage f p m (Some y))).
  { intros f p m Hf Hb. unfold long_ev. destruct (attached m); [intros _; split; [lia|auto]|]. apply treat_steady; [exact Hf|exact (Hb eq_refl)]. }
  destruct (Ascii.eqb c "-") eqn:C.
  - apply Ascii.eqb_eq in C. subst c. apply G; [intros e; apply long_in|apply bare_long].
  - destruct sm; [|apply short_steady]. destruct (find_long usage min (c :: n)) as [e|] eqn:F; [|apply short_steady].
    apply G; [intros e' [= <-]; exact (long_in _ _ F)|apply bare_single].
Qed.
Lemma element_absent t y : snd (element_ev usage min sm t None) <> Bad -> length (fst (element_ev usage min sm t (Some y))) <= length (fst (element_ev usage min sm t None)).
Proof.
  destruct t as [|d [|c n]]; try (intros _; cbn; lia). cbn [element_ev].
  assert (G : forall f p m, snd (long_ev usage f p m None) <> Bad -> length (fst (long_ev usage f p m (Some y))) <= length (fst (long_ev usage f p m None))).
  { intros f p m. unfold long_ev. destruct (attached m); [intros _; lia|]. apply treat_absent. }
  destruct (Ascii.eqb c "-"); [apply G|]. destruct sm; [|apply short_absent]. destruct (find_long usage min (c :: n)); [apply G|apply short_absent].
Qed.
End Steady.

Section Clear.
Hypothesis Hc : clear_cut usage.
Lemma treat_clear f n x y : (forall e, f = Some e -> In e usage) -> bare n -> settled (treat_ev usage f n x true) ->
  treat_ev usage f n y true = treat_ev usage f n x true.
Proof.
  intros Hf Hb. rewrite !treat_judged. unfold judged. destruct (or_dummy usage f) as [d|] eqn:D; [|reflexivity].
  pose proof (or_dummy_in f d Hf D) as I. destruct (Hc d n I Hb) as [H|(Hn & H)].
  - intros _. destruct (H x) as [-> | ->], (H y) as [-> | ->]; reflexivity.
  - intros (A & B). exfalso. destruct x as [x|]; [|rewrite Hn in A; now elim A]. destruct (H x) as [E|E]; rewrite E in A, B; [now elim B|now elim A].
Qed.
Lemma short_clear t x y : settled (short_ev usage t x) -> short_ev usage t y = short_ev usage t x.
Proof.
  induction t as [|c r IH]; [reflexivity|]. cbn [short_ev]. destruct r as [|c' r].
  - pose proof (treat_clear (find_short usage c) [c] x y (fun e => short_in c e) (bare_char c)) as T.
    destruct (treat_ev usage (find_short usage c) [c] x true) as [o1 f1], (treat_ev usage (find_short usage c) [c] y true) as [o2 f2]. cbn [short_ev].
    intros S. assert (S' : settled (o1, f1)) by (destruct f1; [split; cbn; discriminate|exact S|exact S]). specialize (T S'). now injection T as -> ->.
  - destruct (treat_ev usage (find_short usage c) (c :: c' :: r) (Some (c' :: r)) false) as [o1 [|k|]]; [|reflexivity|reflexivity].
    destruct (short_ev usage (c' :: r) x) as [o2 f2], (short_ev usage (c' :: r) y) as [o3 f3]. intros S. specialize (IH S). now injection IH as -> ->.
Qed.
Lemma element_clear t x y : is_option t = true -> settled (element_ev usage min sm t x) -> element_ev usage min sm t y = element_ev usage min sm t x.
Proof.
  intros Io. destruct t as [|d [|c n]]; try discriminate Io. cbn in Io. apply Ascii.eqb_eq in Io. subst d. cbn [element_ev].
  assert (G : forall f p m, (forall e, f = Some e -> In e usage) -> (attached m = None -> bare p) -> settled (long_ev usage f p m x) -> long_ev usage f p m y = long_ev usage f p m x).
  { intros f p m Hf Hb. unfold long_ev. destruct (attached m); [reflexivity|]. apply treat_clear; [exact Hf|exact (Hb eq_refl)]. }
  destruct (Ascii.eqb c "-") eqn:C.
  - apply Ascii.eqb_eq in C. subst c. apply G; [intros e; apply long_in|apply bare_long].
  - destruct sm; [|apply short_clear]. destruct (find_long usage min (c :: n)) as [e|] eqn:F; [|apply short_clear].
    apply G; [intros e' [= <-]; exact (long_in _ _ F)|apply bare_single].
Qed.
End Clear.

(** * The second reading of a line *)
Definition opts_of (x : list (text * role) * list opt * bool) : list opt := snd (fst x).
Definition nonop (t : text) : Prop := is_option t = false.

Lemma scan_nonops gnu ns : Forall nonop ns -> scan usage min sm gnu ns = (all_of Operand ns, [], true).
Proof.
  induction 1 as [|t ns Ht H IH]; [reflexivity|]. cbn [scan]. unfold nonop in Ht. rewrite Ht. cbn [negb]. destruct gnu; [|reflexivity]. now rewrite IH.
Qed.
Lemma scan_after ns r : Forall nonop ns -> scan usage min sm true (ns ++ r) = let '(l, os, ok) := scan usage min sm true r in (all_of Operand ns ++ l, os, ok).
Proof.
  induction 1 as [|t ns Ht H IH]; [cbn; now destruct (scan usage min sm true r) as [[l os] ok]|]. cbn [scan app]. unfold nonop in Ht. rewrite Ht. cbn [negb]. rewrite IH.
  destruct (scan usage min sm true r) as [[l os] ok]. reflexivity.
Qed.
Lemma scan_posix_stop t r : nonop t -> scan usage min sm false (t :: r) = (all_of Operand (t :: r), [], true).
Proof. intros H. cbn [scan]. unfold nonop in H. now rewrite H. Qed.
Definition reordered (l : list (text * role)) (ns : list text) : list text := others l ++ (ns ++ operands l) ++ unread l.

Lemma reordered_nonempty gnu a l os ok ns : scan usage min sm gnu a = (l, os, ok) -> a <> [] -> exists y q, reordered l ns = y :: q.
Proof.
  intros Sc Na. destruct (reordered l ns) as [|y q] eqn:E; [|now exists y, q]. exfalso. unfold reordered in E.
  assert (M : map fst l = a).
  { clear -Sc. revert l os ok Sc. enough (forall k a, length a <= k -> forall l os ok, scan usage min sm gnu a = (l, os, ok) -> map fst l = a) as G by (intros l os ok; exact (G _ a (le_n _) l os ok)).
    induction k as [|k IH]; intros b Hb l os ok.
    - destruct b; [|cbn in Hb; lia]. now intros [= <- _].
    - destruct b as [|t r]; [now intros [= <- _]|]. cbn in Hb. cbn [scan]. destruct (is_option t); cbn [negb].
      + destruct (is_terminator t); [intros [= <- _ _]; cbn; now rewrite map_fst_all|].
        destruct (element_ev usage min sm t (hd_error r)) as [os1 [|[|]|]].
        2: destruct r as [|v r]; [now intros [= <- _]|]; cbn in Hb; destruct (scan usage min sm gnu r) as [[l1 os2] k2] eqn:E; intros [= <- _ _]; cbn; now rewrite (IH r ltac:(lia) _ _ _ E).
        3: intros [= <- _ _]; exact (map_fst_all Unread (t :: r)).
        all: destruct (scan usage min sm gnu r) as [[l1 os2] k2] eqn:E; intros [= <- _ _]; cbn; now rewrite (IH r ltac:(lia) _ _ _ E).
      + destruct gnu; [destruct (scan usage min sm true r) as [[l1 os2] k2] eqn:E; intros [= <- _ _]; cbn; now rewrite (IH r ltac:(lia) _ _ _ E)|].
        intros [= <- _ _]. exact (map_fst_all Operand (t :: r)). }
  pose proof (perm_roles l) as P. rewrite M in P. apply app_eq_nil in E. destruct E as [E1 E]. apply app_eq_nil in E. destruct E as [E2 E3]. apply app_eq_nil in E2. destruct E2 as [_ E2].
  rewrite E1, E2, E3 in P. apply Permutation_sym, Permutation_nil in P. exact (Na P).
Qed.

Lemma second_le : steady usage -> forall k a, length a <= k -> forall ns gnu2 l os ok, Forall nonop ns -> scan usage min sm true a = (l, os, ok) ->
  length (opts_of (scan usage min sm gnu2 (reordered l ns))) <= length os.
Proof.
  intros Hs. induction k as [|k IH]; intros a Ha ns gnu2 l os ok Hn.
  - destruct a; [|cbn in Ha; lia]. intros [= <- <- <-]. unfold reordered. cbn. rewrite app_nil_r, app_nil_r, scan_nonops by exact Hn. cbn. lia.
  - destruct a as [|t r]; [intros [= <- <- <-]; unfold reordered; cbn; rewrite app_nil_r, app_nil_r, scan_nonops by exact Hn; cbn; lia|].
    cbn in Ha. cbn [scan]. destruct (is_option t) eqn:Io; cbn [negb].
    2:{ destruct (scan usage min sm true r) as [[l1 os1] ok1] eqn:E. intros [= <- <- <-].
        specialize (IH r ltac:(lia) (ns ++ [t]) gnu2 l1 os1 ok1). replace (reordered ((t, Operand) :: l1) ns) with (reordered l1 (ns ++ [t])).
        - apply IH; [|exact E]. apply Forall_app. split; [exact Hn|]. constructor; [exact Io|constructor].
        - unfold reordered, operands, unread. rewrite others_cons, !with_role_cons. cbn. now rewrite <- !app_assoc. }
    destruct (is_terminator t) eqn:It.
    { intros [= <- <- <-]. unfold reordered, operands, unread. rewrite others_cons, !with_role_cons, !with_role_all, others_all. cbn [role_eqb app scan]. rewrite Io, It. cbn. lia. }
    destruct (element_ev usage min sm t (hd_error r)) as [os1 fi] eqn:Ev.
    assert (G : settled (os1, fi) -> (let '(l0, os', ok0) := scan usage min sm true r in ((t, Option_) :: l0, os1 ++ os', ok0)) = (l, os, ok) ->
      length (opts_of (scan usage min sm gnu2 (reordered l ns))) <= length os).
    { intros St. destruct (scan usage min sm true r) as [[l1 os2] ok1] eqn:E. intros [= <- <- <-].
      specialize (IH r ltac:(lia) ns gnu2 l1 os2 ok1 Hn E).
      replace (reordered ((t, Option_) :: l1) ns) with (t :: reordered l1 ns) by (unfold reordered, operands, unread; rewrite others_cons, !with_role_cons; reflexivity).
      cbn [scan]. rewrite Io, It. cbn [negb]. rewrite app_length.
      destruct r as [|x r].
      - (* the last element *)
        cbn in E. injection E as <- <- <-. unfold reordered in *. cbn [others operands unread with_role map filter app] in *. rewrite !app_nil_r in *.
        destruct ns as [|y ns].
        + cbn [hd_error] in *. rewrite Ev. destruct fi as [|[|]|]; cbn; rewrite ?app_nil_r; lia.
        + cbn [hd_error] in *. pose proof (element_absent t y) as Q. rewrite Ev in Q. cbn [fst snd] in Q. specialize (Q (proj1 St)).
          destruct (element_ev usage min sm t (Some y)) as [os3 f3]. cbn [fst] in Q. inversion Hn as [|? ? Hy Hn' X1]. subst.
          rewrite (scan_nonops gnu2 (y :: ns) Hn), (scan_nonops gnu2 ns Hn'). destruct f3 as [|[|]|]; cbn; rewrite ?app_nil_r; lia.
      - destruct (reordered_nonempty true (x :: r) l1 os2 ok1 ns E ltac:(discriminate)) as (y & q & Rq). rewrite Rq in *. cbn [hd_error] in *.
        pose proof (element_steady Hs t x y Io) as Q. rewrite Ev in Q. specialize (Q St). destruct (element_ev usage min sm t (Some y)) as [os3 f3]. destruct Q as [Q1 Q2]. cbn [fst snd] in *.
        destruct f3 as [|[|]|]; cbn [opts_of fst snd].
        + destruct (scan usage min sm gnu2 (y :: q)) as [[l4 os4] ok4]. cbn in *. rewrite app_length. lia.
        + elim (proj2 St). cbn. exact (Q2 eq_refl).
        + destruct (scan usage min sm gnu2 (y :: q)) as [[l4 os4] ok4]. cbn in *. rewrite app_length. lia.
        + cbn. lia. }
    destruct fi as [|[|]|].
    + apply G. split; cbn; discriminate.
    + destruct r as [|v r]; [exfalso; now apply skip_next in Ev|]. destruct (scan usage min sm true r) as [[l1 os2] ok1] eqn:E. intros [= <- <- <-]. cbn in Ha.
      specialize (IH r ltac:(lia) ns gnu2 l1 os2 ok1 Hn E).
      replace (reordered ((t, Option_) :: (v, Argument) :: l1) ns) with (t :: v :: reordered l1 ns) by (unfold reordered, operands, unread; rewrite !others_cons, !with_role_cons; reflexivity).
      cbn [scan hd_error] in *. rewrite Io, It, Ev. cbn [negb]. destruct (scan usage min sm gnu2 (reordered l1 ns)) as [[l4 os4] ok4]. cbn in *. rewrite !app_length. lia.
    + apply G. split; cbn; discriminate.
    + intros [= <- <- <-]. change ((t, Unread) :: all_of Unread r) with (all_of Unread (t :: r)). unfold reordered, operands, unread. rewrite !with_role_all, others_all. cbn [role_eqb app]. rewrite app_nil_r.
      assert (R : forall g, scan usage min sm g (t :: r) = (all_of Unread (t :: r), os1, false)) by (intros g; cbn [scan]; rewrite Io, It, Ev; reflexivity).
      destruct gnu2.
      * rewrite scan_after by exact Hn. rewrite R. cbn. lia.
      * destruct ns as [|y ns]; [cbn [app]; rewrite R; cbn; lia|]. inversion Hn. subst. cbn [app]. rewrite scan_posix_stop by assumption. cbn. lia.
Qed.

Lemma second_same : clear_cut usage -> forall k a, length a <= k -> forall ns gnu2 l os ok, Forall nonop ns -> scan usage min sm true a = (l, os, ok) ->
  ok = true \/ gnu2 = true -> exists l', scan usage min sm gnu2 (reordered l ns) = (l', os, ok) /\ operands l' = ns ++ operands l.
Proof.
  intros Hs. induction k as [|k IH]; intros a Ha ns gnu2 l os ok Hn.
  - destruct a; [|cbn in Ha; lia]. intros [= <- <- <-] _. unfold reordered. cbn. rewrite app_nil_r, app_nil_r, scan_nonops by exact Hn. eexists. split; [reflexivity|]. unfold operands. now rewrite with_role_all.
  - destruct a as [|t r]; [intros [= <- <- <-] _; unfold reordered; cbn; rewrite app_nil_r, app_nil_r, scan_nonops by exact Hn; eexists; split; [reflexivity|]; unfold operands; now rewrite with_role_all|].
    cbn in Ha. cbn [scan]. destruct (is_option t) eqn:Io; cbn [negb].
    2:{ destruct (scan usage min sm true r) as [[l1 os1] ok1] eqn:E. intros [= <- <- <-] Hok.
        specialize (IH r ltac:(lia) (ns ++ [t]) gnu2 l1 os1 ok1). replace (reordered ((t, Operand) :: l1) ns) with (reordered l1 (ns ++ [t])).
        - destruct IH as (l' & E' & O'); [|exact E|exact Hok|]. { apply Forall_app. split; [exact Hn|]. constructor; [exact Io|constructor]. }
          exists l'. split; [exact E'|]. rewrite O'. unfold operands. rewrite with_role_cons. cbn. now rewrite <- app_assoc.
        - unfold reordered, operands, unread. rewrite others_cons, !with_role_cons. cbn. now rewrite <- !app_assoc. }
    destruct (is_terminator t) eqn:It.
    { intros [= <- <- <-] _. unfold reordered, operands, unread. rewrite others_cons, !with_role_cons, !with_role_all, others_all. cbn [role_eqb app scan]. rewrite Io, It. cbn [negb]. eexists. split; [reflexivity|].
      rewrite with_role_cons, with_role_all. cbn. now rewrite app_nil_r. }
    destruct (element_ev usage min sm t (hd_error r)) as [os1 fi] eqn:Ev.
    assert (G : settled (os1, fi) -> (let '(l0, os', ok0) := scan usage min sm true r in ((t, Option_) :: l0, os1 ++ os', ok0)) = (l, os, ok) ->
      ok = true \/ gnu2 = true -> exists l', scan usage min sm gnu2 (reordered l ns) = (l', os, ok) /\ operands l' = ns ++ operands l).
    { intros St. destruct (scan usage min sm true r) as [[l1 os2] ok1] eqn:E. intros [= <- <- <-] Hok.
      destruct (IH r ltac:(lia) ns gnu2 l1 os2 ok1 Hn E Hok) as (l' & E' & O').
      replace (reordered ((t, Option_) :: l1) ns) with (t :: reordered l1 ns) by (unfold reordered, operands, unread; rewrite others_cons, !with_role_cons; reflexivity).
      cbn [scan]. rewrite Io, It. cbn [negb]. pose proof (element_clear Hs t (hd_error r) (hd_error (reordered l1 ns)) Io) as Q. rewrite Ev in Q. rewrite (Q St), E'.
      exists ((t, Option_) :: l'). unfold operands in *. rewrite !with_role_cons. cbn [role_eqb app]. split; [|exact O']. destruct fi as [|[|]|]; try reflexivity; [now elim (proj2 St)|now elim (proj1 St)]. }
    destruct fi as [|[|]|].
    + apply G. split; cbn; discriminate.
    + destruct r as [|v r]; [exfalso; now apply skip_next in Ev|]. destruct (scan usage min sm true r) as [[l1 os2] ok1] eqn:E. intros [= <- <- <-] Hok. cbn in Ha.
      destruct (IH r ltac:(lia) ns gnu2 l1 os2 ok1 Hn E Hok) as (l' & E' & O').
      replace (reordered ((t, Option_) :: (v, Argument) :: l1) ns) with (t :: v :: reordered l1 ns) by (unfold reordered, operands, unread; rewrite !others_cons, !with_role_cons; reflexivity).
      cbn [scan hd_error] in *. rewrite Io, It, Ev. cbn [negb]. rewrite E'. eexists. split; [reflexivity|]. unfold operands in *. rewrite !with_role_cons. exact O'.
    + apply G. split; cbn; discriminate.
    + intros [= <- <- <-] Hok. destruct Hok as [Hok|Hok]; [discriminate Hok|]. subst gnu2. change ((t, Unread) :: all_of Unread r) with (all_of Unread (t :: r)). unfold reordered, operands, unread. rewrite !with_role_all, others_all. cbn [role_eqb app]. rewrite app_nil_r.
      rewrite scan_after by exact Hn.
      assert (R : forall g, scan usage min sm g (t :: r) = (all_of Unread (t :: r), os1, false)) by (intros g; cbn [scan]; rewrite Io, It, Ev; reflexivity). rewrite R.
      eexists. split; [reflexivity|]. unfold with_role. rewrite filter_app, map_app. fold (with_role Operand (all_of Operand ns)). fold (with_role Operand (all_of Unread (t :: r))). rewrite !with_role_all. cbn. now rewrite ?app_nil_r.
Qed.
End Element.

(** * Stats *)
Lemma play_count os n : (n <= limit)%N -> play count_option n os =
  if (n + N.of_nat (length os) <=? limit)%N then Next (n + N.of_nat (length os))%N else Refuse limit.
Proof.
  revert n. induction os as [|o os IH]; intros n Hn; cbn [play length].
  - replace (n + N.of_nat 0)%N with n by lia. destruct (n <=? limit)%N eqn:E; [reflexivity|lia].
  - unfold count_option at 1. unfold limit in *. destruct (n =? 2147483647)%N eqn:E.
    + replace (n + N.of_nat (S (length os)) <=? 2147483647)%N with false by lia. f_equal. lia.
    + rewrite N.mod_small by lia. rewrite IH by lia. replace (n + 1 + N.of_nat (length os))%N with (n + N.of_nat (S (length os)))%N by lia. reflexivity.
Qed.
Lemma add_result gnu usage min sm argv st l os ok : (buffer_max st <= limit)%N -> scan usage min sm gnu argv = (l, os, ok) ->
  let r := add gnu usage min sm argv st in
  options_max (fst r) = fold_left add_index usage (options_max st) /\ (buffer_max (fst r) <= limit)%N /\
  ((buffer_max (fst r) < limit)%N -> buffer_max (fst r) = (buffer_max st + N.of_nat (length os))%N /\
    snd r = others l ++ operands l ++ unread l).
Proof.
  intros Hb Sc. cbv zeta. unfold add. pose proof (workhorse_scan usage min sm count_option gnu argv (buffer_max st)) as W. rewrite Sc in W. unfold resolved in W.
  rewrite play_count in W by exact Hb. destruct (buffer_max st + N.of_nat (length os) <=? limit)%N eqn:E.
  - destruct ok; rewrite W; cbn [fst snd buffer_max options_max app].
    + split; [reflexivity|]. split; [lia|]. intros _. split; [reflexivity|].
      assert (Un : unread l = []).
      { pose proof (perm_roles l) as P. pose proof (workhorse_scan usage min sm (fun (a : unit) (o : opt) => Next a) gnu argv tt) as W2. rewrite Sc in W2. unfold resolved in W2.
        assert (play (fun (a : unit) (_ : opt) => Next a) tt os = Next tt) as X by (clear; induction os; cbn; auto). rewrite X in W2.
        clear -Sc. enough (G : forall k a, length a <= k -> forall l os, scan usage min sm gnu a = (l, os, true) -> unread l = []) by exact (G _ argv (le_n _) _ _ Sc).
        clear. induction k as [|k IH]; intros a Ha l os.
        - destruct a; [|cbn in Ha; lia]. now intros [= <- _].
        - destruct a as [|t r]; [now intros [= <- _]|]. cbn in Ha. cbn [scan]. destruct (is_option t); cbn [negb].
          + destruct (is_terminator t).
            * intros [= <- _]. unfold unread. rewrite with_role_cons, with_role_all. reflexivity.
            * destruct (element_ev usage min sm t (hd_error r)) as [os1 [|[|]|]]; [| | |discriminate].
              2: destruct r as [|v r]; [now intros [= <- _]|]; cbn in Ha;
                 destruct (scan usage min sm gnu r) as [[l1 os2] k2] eqn:E; intros [= <- _ ->]; unfold unread; rewrite !with_role_cons; exact (IH r ltac:(lia) _ _ E).
              all: destruct (scan usage min sm gnu r) as [[l1 os2] k2] eqn:E; intros [= <- _ ->]; unfold unread; rewrite !with_role_cons; exact (IH r ltac:(lia) _ _ E).
          + destruct gnu.
            * destruct (scan usage min sm true r) as [[l1 os2] k2] eqn:E; intros [= <- _ ->]; unfold unread; rewrite !with_role_cons; exact (IH r ltac:(lia) _ _ E).
            * intros [= <- _]. change ((t, Operand) :: all_of Operand r) with (all_of Operand (t :: r)). unfold unread. now rewrite with_role_all. }
      now rewrite Un, app_nil_r.
    + split; [reflexivity|]. split; [lia|]. intros _. split; reflexivity.
  - destruct W as (x & -> & _). cbn [fst snd buffer_max options_max]. split; [reflexivity|]. split; [lia|]. intros H. exfalso. exact (N.lt_irrefl _ H).
Qed.
Lemma fold_index usage m : small_indices usage -> (1 <= m < 2 ^ 32)%N ->
  (m <= fold_left add_index usage m < 2 ^ 32)%N /\ Forall (fun d => (index d + 2 <= fold_left add_index usage m)%N) usage.
Proof.
  intros H. revert m. induction H as [|d u Hd H IH]; intros m Hm; cbn [fold_left]; [split; [lia|constructor]|].
  assert (Ad : (m <= add_index m d < 2 ^ 32)%N /\ (index d + 2 <= add_index m d)%N).
  { unfold add_index. rewrite (N.mod_small (index d + 1)) by lia. destruct (m <=? index d + 1)%N eqn:E; [rewrite N.mod_small by lia; lia|lia]. }
  destruct (IH (add_index m d) ltac:(lia)) as (A & F). split; [lia|]. constructor; [lia|exact F].
Qed.

(** the descriptors of what is read are of the usage *)
Lemma scan_in usage min sm gnu : forall k a, length a <= k -> forall l os ok, scan usage min sm gnu a = (l, os, ok) -> Forall (fun o => In (desc o) usage) os.
Proof.
  assert (T : forall f n o d, (forall e, f = Some e -> In e usage) -> Forall (fun o => In (desc o) usage) (fst (treat_ev usage f n o d))).
  { intros f n o d Hf. rewrite treat_judged. unfold judged. destruct (or_dummy usage f) as [e|] eqn:D; [|constructor].
    pose proof (or_dummy_in usage f e Hf D) as I. destruct (check_arg e n o); cbn; constructor; try exact I; constructor. }
  assert (L : forall f p n nx, (forall e, f = Some e -> In e usage) -> Forall (fun o => In (desc o) usage) (fst (long_ev usage f p n nx))).
  { intros f p n nx Hf. unfold long_ev. destruct (attached n); now apply T. }
  assert (Sh : forall t nx, Forall (fun o => In (desc o) usage) (fst (short_ev usage t nx))).
  { induction t as [|c r IH]; intros nx; [constructor|]. cbn [short_ev]. destruct (match r with [] => (nx, true) | _ => (Some r, false) end) as [o d].
    pose proof (T (find_short usage c) (c :: r) o d (fun e => short_in usage c e)) as X. destruct (treat_ev usage (find_short usage c) (c :: r) o d) as [os [|j|]]; [|exact X|exact X].
    specialize (IH nx). destruct (short_ev usage r nx). apply Forall_app. now split. }
  assert (E : forall t nx, Forall (fun o => In (desc o) usage) (fst (element_ev usage min sm t nx))).
  { intros t nx. unfold element_ev. destruct t as [|x [|c n]]; try constructor. destruct (Ascii.eqb c "-"); [apply L; intros e; apply long_in|].
    destruct sm; [|apply Sh]. destruct (find_long usage min (c :: n)) as [e|] eqn:F; [|apply Sh]. apply L. intros e' [= <-]. exact (long_in _ _ _ _ F). }
  induction k as [|k IH]; intros a Ha l os ok.
  - destruct a; [|cbn in Ha; lia]. intros [= _ <- _]. constructor.
  - destruct a as [|t r]; [intros [= _ <- _]; constructor|]. cbn in Ha. cbn [scan]. destruct (is_option t); cbn [negb].
    + destruct (is_terminator t); [intros [= _ <- _]; constructor|]. specialize (E t (hd_error r)).
      destruct (element_ev usage min sm t (hd_error r)) as [os1 [|[|]|]]; cbn [fst] in E.
      2: destruct r as [|v r]; [intros [= _ <- _]; exact E|]; cbn in Ha; destruct (scan usage min sm gnu r) as [[l1 os2] k2] eqn:Es; intros [= _ <- _]; apply Forall_app; split; [exact E|exact (IH r ltac:(lia) _ _ _ Es)].
      3: intros [= _ <- _]; exact E.
      all: destruct (scan usage min sm gnu r) as [[l1 os2] k2] eqn:Es; intros [= _ <- _]; apply Forall_app; split; [exact E|exact (IH r ltac:(lia) _ _ _ Es)].
    + destruct gnu; [|intros [= _ <- _]; constructor]. destruct (scan usage min sm true r) as [[l1 os2] k2] eqn:Es; intros [= _ <- _]; exact (IH r ltac:(lia) _ _ _ Es).
Qed.

(** the array after Stats and how many options the parser reads in it *)
Lemma second_count c l os ok : flags_match c -> gnu_ c = false \/ steady (usage_ c) ->
  scan (usage_ c) (min_ c) (single_ c) (gnu_ c) (argv_ c) = (l, os, ok) ->
  length (opts_of (scan (usage_ c) (min_ c) (single_ c) (again_ c) (others l ++ operands l ++ unread l))) <= length os.
Proof.
  intros Fm Hs Sc. destruct (gnu_ c) eqn:G.
  - destruct Hs as [Hs|Hs]; [discriminate Hs|]. exact (second_le (usage_ c) (min_ c) (single_ c) Hs _ (argv_ c) (le_n _) [] (again_ c) l os ok (Forall_nil _) Sc).
  - rewrite (Fm G). rewrite (posix_line _ _ _ _ (argv_ c) (le_n _) _ _ _ Sc). rewrite Sc. cbn. lia.
Qed.


Lemma add_all_ge cs : forall st st' cs', (buffer_max st <= limit)%N -> Forall call_ok cs -> (1 <= options_max st < 2 ^ 32)%N -> add_all st cs = (st', cs') ->
  (buffer_max st' <= limit)%N /\ (options_max st <= options_max st' < 2 ^ 32)%N /\ ((buffer_max st' < limit)%N -> (buffer_max st <= buffer_max st')%N).
Proof.
  induction cs as [|c r IH]; intros st st' cs' Hb Hc Ho; cbn [add_all]; [intros [= <- _]; split; [exact Hb|split; [lia|auto with arith]]; intros; lia|].
  inversion Hc as [|? ? Hc1 Hc2]. subst. destruct (add_call st c) as [st1 a] eqn:A. destruct (add_all st1 r) as [st2 r'] eqn:R. intros [= <- _].
  destruct (scan (usage_ c) (min_ c) (single_ c) (gnu_ c) (argv_ c)) as [[l os] ok] eqn:Sc.
  pose proof (add_result _ _ _ _ _ st l os ok Hb Sc) as X. unfold add_call in A. rewrite A in X. cbn [fst snd] in X. destruct X as (X1 & X2 & X3).
  destruct Hc1 as (_ & _ & Sm). destruct (fold_index (usage_ c) (options_max st) Sm Ho) as (F1 & _). rewrite <- X1 in F1.
  destruct (IH st1 st2 r' X2 Hc2 ltac:(lia) R) as (Y1 & Y2 & Y3). split; [exact Y1|]. split; [lia|]. intros Z. specialize (Y3 Z). 
  assert (buffer_max st1 < limit)%N as Z1 by lia. destruct (X3 Z1) as (X4 & _). lia.
Qed.

Lemma memory_gen cs : forall st st' cs' p os0 o b, (buffer_max st <= limit)%N -> (1 <= options_max st < 2 ^ 32)%N -> Forall call_ok cs ->
  add_all st cs = (st', cs') -> (buffer_max st' < limit)%N ->
  parse_state p os0 o b -> N.of_nat o = options_max st' -> (buffer_max st' - buffer_max st + N.of_nat (length os0) + 1 <= N.of_nat b)%N ->
  supported b -> exists p', parse_all p cs' = Some p' /\ length (stored (arrays p')) < b.
Proof.
  induction cs as [|c r IH]; intros st st' cs' p os0 o b Hb Ho Hc; cbn [add_all].
  - intros [= <- <-] _ (I & _) _ Hsz _. exists p. split; [reflexivity|]. rewrite (stored_inv _ _ I). lia.
  - inversion Hc as [|? ? Hc1 Hc2]. subst. destruct (add_call st c) as [st1 a] eqn:A. destruct (add_all st1 r) as [st2 r'] eqn:R. intros [= <- <-] Lt Ps So Hsz Sp.
    destruct (scan (usage_ c) (min_ c) (single_ c) (gnu_ c) (argv_ c)) as [[l os] ok] eqn:Sc.
    pose proof (add_result _ _ _ _ _ st l os ok Hb Sc) as X. unfold add_call in A. rewrite A in X. cbn [fst snd] in X. destruct X as (X1 & X2 & X3).
    destruct Hc1 as (Fm & Hs & Sm). destruct (fold_index (usage_ c) (options_max st) Sm Ho) as (F1 & F2). rewrite <- X1 in F1, F2.
    destruct (add_all_ge r st1 st2 r' X2 Hc2 ltac:(lia) R) as (Y1 & Y2 & Y3). specialize (Y3 Lt). assert (Z1 : (buffer_max st1 < limit)%N) by lia. destruct (X3 Z1) as (X4 & ->).
    pose proof (second_count c l os ok Fm Hs Sc) as Le.
    destruct (scan (usage_ c) (min_ c) (single_ c) (again_ c) (others l ++ operands l ++ unread l)) as [[l2 os2] ok2] eqn:Sc2. cbn [opts_of fst snd] in Le.
    cbn [parse_all]. unfold parse_call. cbn [again_ usage_ min_ single_ argv_ with_argv].
    pose proof (parse_step (again_ c) (usage_ c) (min_ c) (single_ c) None (others l ++ operands l ++ unread l) p os0 o b l2 os2 ok2 Ps Sp Sc2) as P.
    destruct (parse (again_ c) (usage_ c) (min_ c) (single_ c) None (others l ++ operands l ++ unread l) p) as [[p' a']|].
    + destruct P as (P & _). cbn [kept] in P. eapply IH; [exact X2|lia|exact Hc2|exact R|exact Lt|exact P|exact So| |exact Sp]. rewrite app_length. lia.
    + exfalso. destruct P as [P|[P|P]]; [lia|lia|]. apply Exists_exists in P. destruct P as (x & Ix & Nx). apply Nx.
      pose proof (scan_in _ _ _ _ _ _ (le_n _) _ _ _ Sc2) as D. rewrite Forall_forall in D. specialize (D x Ix). destruct Ps as (_ & Lo & _).
      unfold small_indices in Sm. rewrite Forall_forall in Sm, F2. specialize (Sm _ D). specialize (F2 _ D). split; [exact Sm|]. rewrite Lo. lia.
Qed.
Lemma memory_lemma cs st cs' : Forall call_ok cs -> add_all no_stats cs = (st, cs') -> (buffer_max st < limit)%N ->
  exists p, parse_all (sized_parser st) cs' = Some p /\ (N.of_nat (length (stored (arrays p))) < buffer_max st)%N.
Proof.
  intros Hc A L. destruct (add_all_ge cs no_stats st cs' ltac:(cbn; unfold limit; lia) Hc ltac:(cbn; lia) A) as (G1 & G2 & G3). specialize (G3 L). cbn in G2, G3.
  destruct (memory_gen cs no_stats st cs' (sized_parser st) [] (N.to_nat (options_max st)) (N.to_nat (buffer_max st)) ltac:(cbn; unfold limit; lia) ltac:(cbn; lia) Hc A L) as (p & P & Q).
  - split; [apply inv_init|]. cbn. rewrite !map_length, !seq_length. now split.
  - lia.
  - cbn [buffer_max no_stats length]. lia.
  - unfold supported. unfold limit in L. lia.
  - exists p. split; [exact P|lia].
Qed.

(** * C113 *)
Lemma parse_fun gnu usage min sm bufmax argv p l os ok : scan usage min sm gnu argv = (l, os, ok) ->
  option_map fst (parse gnu usage min sm bufmax argv p) =
  match first_empty (arrays p) bufmax with
  | None => None
  | Some n =>
      match play (store_option bufmax) {| mem := arrays p; op_count := n |} os with
      | Next st => Some {| arrays := mem st; optionsCount := op_count st;
          nonOptions := if ok then match operands l with [] => nonOptions p | _ => operands l end else nonOptions p; error := negb ok |}
      | Refuse st => Some {| arrays := mem st; optionsCount := op_count st; nonOptions := nonOptions p; error := true |}
      | Overrun => None
      end
  end.
Proof.
  intros Sc. unfold parse. destruct (first_empty (arrays p) bufmax) as [n|]; [|reflexivity].
  pose proof (workhorse_scan usage min sm (store_option bufmax) gnu argv {| mem := arrays p; op_count := n |}) as W. rewrite Sc in W. unfold resolved in W.
  destruct (play (store_option bufmax) {| mem := arrays p; op_count := n |} os) as [st|st|].
  - destruct ok; rewrite W; cbn [option_map fst app length Nat.add negb]; [|reflexivity]. rewrite skipn_app, skipn_all, Nat.sub_diag. cbn. reflexivity.
  - destruct W as (b & -> & _). reflexivity.
  - rewrite W. reflexivity.
Qed.
Lemma again_lemma gnu gnu2 usage min sm bufmax argv p st st' argv1 : (buffer_max st <= limit)%N -> clear_cut usage ->
  add gnu usage min sm argv st = (st', argv1) -> (buffer_max st' < limit)%N ->
  gnu2 = gnu \/ gnu = true /\ (exists p' a, parse gnu usage min sm bufmax argv p = Some (p', a) /\ error p' = false) ->
  option_map fst (parse gnu2 usage min sm bufmax argv1 p) = option_map fst (parse gnu usage min sm bufmax argv p).
Proof.
  intros Hb Cc A Lt Fl. destruct (scan usage min sm gnu argv) as [[l os] ok] eqn:Sc. pose proof (add_result gnu usage min sm argv st l os ok Hb Sc) as X. rewrite A in X. cbn [fst snd] in X.
  destruct X as (_ & _ & X). destruct (X Lt) as (_ & ->). destruct gnu.
  - assert (Hok : ok = true \/ gnu2 = true).
    { destruct Fl as [->|(_ & p' & a & E & Er)]; [now right|left]. pose proof (parse_fun true usage min sm bufmax argv p l os ok Sc) as F. rewrite E in F. cbn [option_map fst] in F.
      destruct (first_empty (arrays p) bufmax) as [n|]; [|discriminate F]. destruct (play (store_option bufmax) {| mem := arrays p; op_count := n |} os) as [s1|s1|]; try discriminate F; injection F as F; rewrite F in Er; cbn in Er; [now destruct ok|discriminate Er]. }
    destruct (second_same usage min sm Cc _ argv (le_n _) [] gnu2 l os ok (Forall_nil _) Sc Hok) as (l' & Sc' & Op). unfold reordered in Sc'. cbn [app] in Sc', Op.
    rewrite (parse_fun _ _ _ _ bufmax _ p _ _ _ Sc'), (parse_fun _ _ _ _ bufmax _ p _ _ _ Sc), Op. reflexivity.
  - destruct Fl as [->|(F & _)]; [|discriminate F]. now rewrite (posix_line _ _ _ _ argv (le_n _) _ _ _ Sc).
Qed.

(** * C115 *)
Lemma alike_scan o b p gnu usage min sm bufmax argv1 argv2 p1 p2 a1 a2 l1 l2 os1 os2 ok : supported b -> built o b p ->
  scan usage min sm gnu argv1 = (l1, os1, ok) -> scan usage min sm gnu argv2 = (l2, os2, ok) ->
  map (fun x => (desc x, arg x)) os1 = map (fun x => (desc x, arg x)) os2 -> operands l1 = operands l2 ->
  parse gnu usage min sm bufmax argv1 p = Some (p1, a1) -> parse gnu usage min sm bufmax argv2 p = Some (p2, a2) -> alike p1 p2.
Proof.
  intros Sp Bu S1 S2 Eo El P1 P2. destruct (built_state o b p Sp Bu) as (os0 & S).
  pose proof (parse_step gnu usage min sm bufmax argv1 p os0 o b _ _ _ S Sp S1) as X1. rewrite P1 in X1. destruct X1 as ((I1 & _) & E1 & _ & N1).
  pose proof (parse_step gnu usage min sm bufmax argv2 p os0 o b _ _ _ S Sp S2) as X2. rewrite P2 in X2. destruct X2 as ((I2 & _) & E2 & _ & N2).
  unfold alike. rewrite (stored_inv _ _ I1), (stored_inv _ _ I2), !map_app. split; [|split; [now rewrite N1, N2, El|congruence]]. f_equal.
  destruct bufmax as [c|]; [|exact Eo]. cbn [kept]. now rewrite <- !firstn_map, Eo.
Qed.
Lemma first_unique {X} (P : X -> Prop) l x y : is_first P l x -> is_first P l y -> x = y.
Proof.
  intros (a & b & -> & Px & Fa). revert a Fa. induction a as [|z a IH]; intros Fa (c & d & E & Py & Fc).
  - destruct c as [|w c]; [now injection E as ->|]. injection E as <- _. inversion Fc. contradiction.
  - inversion Fa. subst. destruct c as [|w c]; [injection E as <- _; contradiction|]. injection E as <- E. inversion Fc. subst. apply IH; [assumption|]. exists c, d. now split.
Qed.
Lemma only_unique {X} (P : X -> Prop) l x y : is_only P l x -> is_only P l y -> x = y.
Proof.
  intros (a & b & E & Px & Fa) (c & d & E' & Py & Fc). apply Forall_app in Fa, Fc. apply (first_unique P l); [exists a, b|exists c, d]; (split; [assumption|]); split; tauto.
Qed.
Lemma first_none {X} (P : X -> Prop) l x : is_first P l x -> Forall (fun y => ~ P y) l -> False.
Proof. intros (a & b & -> & Px & _) F. rewrite Forall_forall in F. exact (F x (in_elt _ _ _) Px). Qed.
Lemma unknown_fun usage d d' : unknown usage d -> unknown usage d' -> d = d'.
Proof.
  destruct d as [d|], d' as [e|]; cbn; intros H H'; [f_equal; exact (first_unique _ _ _ _ H H')|exfalso; exact (first_none _ _ _ H H')|exfalso; exact (first_none _ _ _ H' H)|reflexivity].
Qed.
Lemma for_short_fun usage c d d' : for_short usage c d -> for_short usage c d' -> d = d'.
Proof.
  intros [(e & H & ->)|(H & U)] [(e' & H' & ->)|(H' & U')].
  - f_equal. exact (first_unique _ _ _ _ H H').
  - exfalso. exact (first_none _ _ _ H H').
  - exfalso. exact (first_none _ _ _ H' H).
  - exact (unknown_fun _ _ _ U U').
Qed.
Lemma names_fun usage min p d d' : names usage min p d -> names usage min p d' -> d = d'.
Proof.
  intros [H|(N & H)] [H'|(N' & H')].
  - exact (first_unique _ _ _ _ H H').
  - exfalso. exact (first_none _ _ _ H N').
  - exfalso. exact (first_none _ _ _ H' N).
  - exact (only_unique _ _ _ _ H H').
Qed.
Lemma for_long_fun usage min p d d' : for_long usage min p d -> for_long usage min p d' -> d = d'.
Proof.
  intros [(e & H & ->)|(H & U)] [(e' & H' & ->)|(H' & U')].
  - f_equal. exact (names_fun _ _ _ _ _ H H').
  - exfalso. exact (H' e H).
  - exfalso. exact (H e' H').
  - exact (unknown_fun _ _ _ U U').
Qed.

Lemma scan_cons usage min sm gnu t (r : list text) os f : is_option t = true -> is_terminator t = false -> element_ev usage min sm t (hd_error r) = (os, f) ->
  scan usage min sm gnu (t :: r) =
  match f with
  | Bad => (all_of Unread (t :: r), os, false)
  | Stop true =>
      match r with
      | v :: r' => let '(l, os', ok) := scan usage min sm gnu r' in ((t, Option_) :: (v, Argument) :: l, os ++ os', ok)
      | [] => ([(t, Option_)], os, true)
      end
  | _ => let '(l, os', ok) := scan usage min sm gnu r in ((t, Option_) :: l, os ++ os', ok)
  end.
Proof. intros O T E. cbn [scan]. rewrite O, T, E. reflexivity. Qed.
Lemma group_lemma o b p gnu usage min bufmax c c' r (post : list text) d p1 p2 a1 a2 : supported b -> built o b p ->
  c <> "-"%char -> c' <> "-"%char -> for_short usage c (Some d) -> (forall n a, ignores (check_arg d n a)) ->
  parse gnu usage min false bufmax (("-"%char :: c :: c' :: r) :: post) p = Some (p1, a1) ->
  parse gnu usage min false bufmax (["-"%char; c] :: ("-"%char :: c' :: r) :: post) p = Some (p2, a2) -> alike p1 p2.
Proof.
  intros Sp Bu C C' Fs Ig P1 P2. pose proof (short_for usage c) as Fc. pose proof (for_short_fun _ _ _ _ Fs Fc) as Ed.
  apply Ascii.eqb_neq in C, C'.
  assert (Ju : forall n a dt, treat_ev usage (find_short usage c) n a dt = ([{| desc := d; name := n; arg := None |}], Cont)).
  { intros n a dt. rewrite treat_judged, <- Ed. cbn [judged]. destruct (Ig n a) as [-> | ->]; reflexivity. }
  assert (E1 : element_ev usage min false ("-"%char :: c :: c' :: r) (hd_error post) =
    let (os, f) := short_ev usage (c' :: r) (hd_error post) in ({| desc := d; name := c :: c' :: r; arg := None |} :: os, f)).
  { cbn [element_ev]. rewrite C. cbn [short_ev]. rewrite Ju. destruct r; reflexivity. }
  assert (E2 : element_ev usage min false ["-"%char; c] (Some ("-"%char :: c' :: r)) = ([{| desc := d; name := [c]; arg := None |}], Cont)).
  { cbn [element_ev]. rewrite C. cbn [short_ev]. rewrite Ju. reflexivity. }
  assert (E3 : element_ev usage min false ("-"%char :: c' :: r) (hd_error post) = short_ev usage (c' :: r) (hd_error post)).
  { cbn [element_ev]. rewrite C'. reflexivity. }
  destruct (scan usage min false gnu (("-"%char :: c :: c' :: r) :: post)) as [[l1 os1] ok1] eqn:S1.
  destruct (scan usage min false gnu (["-"%char; c] :: ("-"%char :: c' :: r) :: post)) as [[l2 os2] ok2] eqn:S2.
  assert (G : map (fun x => (desc x, arg x)) os1 = map (fun x => (desc x, arg x)) os2 /\ operands l1 = operands l2 /\ ok1 = ok2).
  { clear P1 P2.
    assert (T2 : is_terminator ["-"%char; c] = false) by (cbn; rewrite C; reflexivity).
    assert (T3 : is_terminator ("-"%char :: c' :: r) = false) by (cbn; destruct r; [now rewrite C'|reflexivity]).
    apply (eq_trans (eq_sym (scan_cons usage min false gnu ["-"%char; c] (("-"%char :: c' :: r) :: post) _ _ eq_refl T2 E2))) in S2.
    destruct (short_ev usage (c' :: r) (hd_error post)) as [os f].
    change (@cons (list ascii)) with (@cons text) in S1, S2.
    rewrite (scan_cons usage min false gnu ("-"%char :: c' :: r) post _ _ eq_refl T3 E3) in S2.
    rewrite (scan_cons usage min false gnu ("-"%char :: c :: c' :: r) post _ _ eq_refl eq_refl E1) in S1. destruct f as [|[|]|].
    2: destruct post as [|v post]; [injection S1 as <- <- <-; injection S2 as <- <- <-; cbn; repeat split|]; destruct (scan usage min false gnu post) as [[l3 os3] ok3].
    1,3: destruct (scan usage min false gnu post) as [[l3 os3] ok3].
    1-3: injection S1 as <- <- <-; injection S2 as <- <- <-; cbn; repeat split.
    injection S1 as <- <- <-; injection S2 as <- <- <-. split; [reflexivity|]. split; [|reflexivity]. unfold operands. rewrite !with_role_cons, !with_role_all. reflexivity. }
  destruct G as (G1 & G2 & <-). exact (alike_scan o b p gnu usage min false bufmax _ _ p1 p2 a1 a2 l1 l2 os1 os2 ok1 Sp Bu S1 S2 G1 G2 P1 P2).
Qed.

Lemma taken_scan usage min sm gnu t1 t2 v (post : list text) o1 o2 : 
  is_option t1 = true -> is_terminator t1 = false -> is_option t2 = true -> is_terminator t2 = false ->
  element_ev usage min sm t1 (hd_error post) = ([o1], Stop false) -> element_ev usage min sm t2 (Some v) = ([o2], Stop true) -> desc o1 = desc o2 -> arg o1 = arg o2 ->
  forall l1 os1 ok1 l2 os2 ok2, scan usage min sm gnu (t1 :: post) = (l1, os1, ok1) -> scan usage min sm gnu (t2 :: v :: post) = (l2, os2, ok2) ->
  map (fun x => (desc x, arg x)) os1 = map (fun x => (desc x, arg x)) os2 /\ operands l1 = operands l2 /\ ok1 = ok2.
Proof.
  intros O1 T1 O2 T2 E1 E2 Ed Ea l1 os1 ok1 l2 os2 ok2 S1 S2. change (@cons (list ascii)) with (@cons text) in S1, S2. rewrite (scan_cons usage min sm gnu t1 post _ _ O1 T1 E1) in S1. rewrite (scan_cons usage min sm gnu t2 (v :: post) _ _ O2 T2 E2) in S2.
  destruct (scan usage min sm gnu post) as [[l3 os3] ok3]. injection S1 as <- <- <-. injection S2 as <- <- <-. cbn. rewrite Ed, Ea. repeat split.
Qed.
Lemma attached_lemma o b p gnu usage min bufmax c r (post : list text) d p1 p2 a1 a2 : supported b -> built o b p ->
  c <> "-"%char -> r <> [] -> for_short usage c (Some d) -> check_arg d (c :: r) (Some r) = ARG_OK -> check_arg d [c] (Some r) = ARG_OK ->
  parse gnu usage min false bufmax (("-"%char :: c :: r) :: post) p = Some (p1, a1) ->
  parse gnu usage min false bufmax (["-"%char; c] :: r :: post) p = Some (p2, a2) -> alike p1 p2.
Proof.
  intros Sp Bu C R Fs K1 K2 P1 P2. pose proof (for_short_fun _ _ _ _ Fs (short_for usage c)) as Ed. apply Ascii.eqb_neq in C.
  destruct r as [|c' r]; [now elim R|].
  assert (E1 : element_ev usage min false ("-"%char :: c :: c' :: r) (hd_error post) = ([{| desc := d; name := c :: c' :: r; arg := Some (c' :: r) |}], Stop false)).
  { cbn [element_ev]. rewrite C. cbn [short_ev]. rewrite treat_judged, <- Ed. cbn [judged]. rewrite K1. reflexivity. }
  assert (E2 : element_ev usage min false ["-"%char; c] (Some (c' :: r)) = ([{| desc := d; name := [c]; arg := Some (c' :: r) |}], Stop true)).
  { cbn [element_ev]. rewrite C. cbn [short_ev]. rewrite treat_judged, <- Ed. cbn [judged]. rewrite K2. reflexivity. }
  assert (T2 : is_terminator ["-"%char; c] = false) by (cbn; rewrite C; reflexivity).
  destruct (scan usage min false gnu (("-"%char :: c :: c' :: r) :: post)) as [[l1 os1] ok1] eqn:S1.
  destruct (scan usage min false gnu (["-"%char; c] :: (c' :: r) :: post)) as [[l2 os2] ok2] eqn:S2.
  destruct (taken_scan usage min false gnu ("-"%char :: c :: c' :: r) ["-"%char; c] (c' :: r) post _ _ eq_refl eq_refl eq_refl T2 E1 E2 eq_refl eq_refl _ _ _ _ _ _ S1 S2) as (G1 & G2 & <-).
  exact (alike_scan o b p gnu usage min false bufmax _ _ p1 p2 a1 a2 l1 l2 os1 os2 ok1 Sp Bu S1 S2 G1 G2 P1 P2).
Qed.
Lemma long_lemma o b p gnu usage min sm bufmax (n v : text) (post : list text) d p1 p2 a1 a2 : supported b -> built o b p -> sane usage ->
  n <> [] -> ~ In "="%char n -> for_long usage min n (Some d) -> 
  check_arg d ("-"%char :: "-"%char :: n ++ "="%char :: v) (Some v) = ARG_OK -> check_arg d ("-"%char :: "-"%char :: n) (Some v) = ARG_OK ->
  parse gnu usage min sm bufmax (("-"%char :: "-"%char :: n ++ "="%char :: v) :: post) p = Some (p1, a1) ->
  parse gnu usage min sm bufmax (("-"%char :: "-"%char :: n) :: v :: post) p = Some (p2, a2) -> alike p1 p2.
Proof.
  intros Sp Bu Sa Nn Ne Fl K1 K2 P1 P2.
  assert (St1 : stem (n ++ "="%char :: v) n (Some v)) by (split; [exact Ne|reflexivity]). assert (St2 : stem n n None) by (split; [exact Ne|reflexivity]).
  pose proof (for_long_fun _ _ _ _ _ Fl (long_for usage min Sa _ _ _ St1)) as D1. pose proof (for_long_fun _ _ _ _ _ Fl (long_for usage min Sa _ _ _ St2)) as D2.
  assert (A1 : attached (n ++ "="%char :: v) = Some v) by (destruct (stem_ex (n ++ "="%char :: v)) as (q & Q); now destruct (stem_fun _ _ _ _ _ Q St1)).
  assert (A2 : attached n = None) by (destruct (stem_ex n) as (q & Q); now destruct (stem_fun _ _ _ _ _ Q St2)).
  assert (E1 : element_ev usage min sm ("-"%char :: "-"%char :: n ++ "="%char :: v) (hd_error post) = ([{| desc := d; name := "-"%char :: "-"%char :: n ++ "="%char :: v; arg := Some v |}], Stop false)).
  { cbn [element_ev]. rewrite Ascii.eqb_refl. unfold long_ev. rewrite A1, treat_judged, <- D1. cbn [judged]. rewrite K1. reflexivity. }
  assert (E2 : element_ev usage min sm ("-"%char :: "-"%char :: n) (Some v) = ([{| desc := d; name := "-"%char :: "-"%char :: n; arg := Some v |}], Stop true)).
  { cbn [element_ev]. rewrite Ascii.eqb_refl. unfold long_ev. rewrite A2, treat_judged, <- D2. cbn [judged]. rewrite K2. reflexivity. }
  assert (T1 : is_terminator ("-"%char :: "-"%char :: n ++ "="%char :: v) = false) by (destruct n; reflexivity).
  assert (T2 : is_terminator ("-"%char :: "-"%char :: n) = false) by (destruct n; [now elim Nn|reflexivity]).
  destruct (scan usage min sm gnu (("-"%char :: "-"%char :: n ++ "="%char :: v) :: post)) as [[l1 os1] ok1] eqn:S1.
  destruct (scan usage min sm gnu (("-"%char :: "-"%char :: n) :: v :: post)) as [[l2 os2] ok2] eqn:S2.
  destruct (taken_scan usage min sm gnu ("-"%char :: "-"%char :: n ++ "="%char :: v) ("-"%char :: "-"%char :: n) v post _ _ eq_refl T1 eq_refl T2 E1 E2 eq_refl eq_refl _ _ _ _ _ _ S1 S2) as (G1 & G2 & <-).
  exact (alike_scan o b p gnu usage min sm bufmax _ _ p1 p2 a1 a2 l1 l2 os1 os2 ok1 Sp Bu S1 S2 G1 G2 P1 P2).
Qed.

(** * C116 *)
Lemma long_only o b p gnu usage min sm bufmax n q v p' a : supported b -> built o b p -> sane usage -> n <> [] -> stem n q v ->
  parse gnu usage min sm bufmax ["-"%char :: "-"%char :: n] p = Some (p', a) ->
  exists os, stored (arrays p') = stored (arrays p) ++ os /\ length os <= 1 /\ Forall (fun x => for_long usage min q (Some (desc x))) os.
Proof.
  intros Sp Bu Sa Nn St P. destruct (built_state o b p Sp Bu) as (os0 & S). destruct (scan usage min sm gnu ["-"%char :: "-"%char :: n]) as [[l os] ok] eqn:Sc.
  pose proof (parse_step gnu usage min sm bufmax _ p os0 o b l os ok S Sp Sc) as X. rewrite P in X. destruct X as ((I & _) & _). destruct S as (I0 & _).
  rewrite (stored_inv _ _ I), (stored_inv _ _ I0). exists (kept bufmax (length os0) os). split; [reflexivity|].
  enough (G : length os <= 1 /\ Forall (fun x => for_long usage min q (Some (desc x))) os).
  { destruct G as (G1 & G2). destruct bufmax as [c|]; cbn [kept]; [|now split]. split; [rewrite firstn_length; lia|]. apply Forall_forall. intros x Hx. rewrite Forall_forall in G2. apply G2.
    rewrite <- (firstn_skipn (c - length os0) os). apply in_or_app. now left. }
  assert (T1 : is_terminator ("-"%char :: "-"%char :: n) = false) by (destruct n; [now elim Nn|reflexivity]).
  assert (O1 : is_option ("-"%char :: "-"%char :: n) = true) by reflexivity.
  assert (J : forall nx, length (fst (element_ev usage min sm ("-"%char :: "-"%char :: n) nx)) <= 1 /\ Forall (fun x => for_long usage min q (Some (desc x))) (fst (element_ev usage min sm ("-"%char :: "-"%char :: n) nx))).
  { intros nx. cbn [element_ev]. rewrite Ascii.eqb_refl. pose proof (long_for usage min Sa n q v St) as Fl.
    assert (T : forall a dt, length (fst (treat_ev usage (find_long usage min n) ("-"%char :: "-"%char :: n) a dt)) <= 1 /\ Forall (fun x => for_long usage min q (Some (desc x))) (fst (treat_ev usage (find_long usage min n) ("-"%char :: "-"%char :: n) a dt))).
    { intros a' dt. rewrite treat_judged. unfold judged. destruct (or_dummy usage (find_long usage min n)) as [d|]; [|cbn; split; [lia|constructor]].
      destruct (check_arg d ("-"%char :: "-"%char :: n) a'); cbn; (split; [lia|]); first [solve [constructor] | constructor; [exact Fl|constructor]]. }
    unfold long_ev. destruct (attached n); apply T. }
  cbn [scan hd_error] in Sc. rewrite O1, T1 in Sc. cbn [negb] in Sc. specialize (J None).
  destruct (element_ev usage min sm ("-"%char :: "-"%char :: n) None) as [os1 [|[|]|]]; cbn [fst] in J; injection Sc as _ <- _; rewrite ?app_nil_r; exact J.
Qed.
Lemma named_lemma usage min q d : q <> [] -> for_long usage min q (Some d) -> longopt d <> [] \/ dummy d.
Proof.
  intros Nq [(e & H & [= <-])|(_ & U)].
  - left. destruct H as [(a & b & _ & L & _)|(_ & a & b & _ & (_ & y & E) & _)]; [now rewrite L|]. rewrite E. destruct q; [now elim Nq|discriminate].
  - right. destruct U as (a & b & _ & D & _). exact D.
Qed.

(** * C111 with a limit *)
Lemma play_within c os : forall os0 st, storing (Some c) os0 st -> (N.of_nat (length (buffer (mem st))) < limit)%N -> c <= length (buffer (mem st)) ->
  Forall (good (mem st)) os -> exists st', play (store_option (Some c)) st os = Next st'.
Proof.
  induction os as [|o os IH]; intros os0 st H Lim Hc Hg; [now exists st|]. cbn [play]. inversion_clear Hg as [|? ? G1 G2].
  pose proof (store_result (Some c) os0 st o H Lim) as R. destruct (store_option (Some c) st o) as [st1|st1|].
  - destruct R as (H1 & So & Sb). apply (IH _ st1 H1); [now rewrite Sb|now rewrite Sb|]. unfold good. rewrite So. exact G2.
  - destruct R.
  - exfalso. destruct R as ([R|(b & [= <-] & R)] & [R2|R2]); [discriminate R|discriminate R|lia|exact (R2 G1)].
Qed.
Lemma bounded_lemma o b p gnu usage min sm c argv : supported b -> built o b p -> c <= b ->
  Forall (fun d => (index d < 2 ^ 31)%N /\ (index d < N.of_nat o)%N) usage ->
  exists p' argv', parse gnu usage min sm (Some c) argv p = Some (p', argv') /\ length (stored (arrays p')) <= Nat.max c (length (stored (arrays p))).
Proof.
  intros Sp Bu Hc Hu. destruct (built_state o b p Sp Bu) as (os0 & S). pose proof S as S'. destruct S as (I & Lo & Lb).
  destruct (scan usage min sm gnu argv) as [[l os] ok] eqn:Sc.
  enough (X : exists r, option_map fst (parse gnu usage min sm (Some c) argv p) = Some r).
  { destruct X as (p' & X). destruct (parse gnu usage min sm (Some c) argv p) as [[p1 a1]|] eqn:E; [|discriminate X]. injection X as ->. exists p', a1. split; [reflexivity|].
    pose proof (parse_step gnu usage min sm (Some c) argv p os0 o b l os ok S' Sp Sc) as Y. rewrite E in Y. destruct Y as ((I' & _) & _).
    rewrite (stored_inv _ _ I), (stored_inv _ _ I'), app_length. cbn [kept]. rewrite firstn_length. lia. }
  rewrite (parse_fun _ _ _ _ _ _ p l os ok Sc).
  assert (Fe : exists n, first_empty (arrays p) (Some c) = Some n).
  { unfold first_empty. rewrite (used_inv _ _ I), Lb. destruct (c <=? length os0) eqn:E; [now exists c|]. assert (length os0 <? b = true) as -> by lia. now exists (length os0). }
  destruct Fe as (n & Fe). rewrite Fe. pose proof (empty_slot _ _ _ _ I Fe) as St.
  destruct (play_within c os os0 _ St) as (st' & ->).
  - cbn. rewrite Lb. exact Sp.
  - cbn. lia.
  - pose proof (scan_in _ _ _ _ _ _ (le_n _) _ _ _ Sc) as D. rewrite Forall_forall in D, Hu. apply Forall_forall. intros x Hx. destruct (Hu _ (D x Hx)) as (H1 & H2). split; [exact H1|]. cbn. rewrite Lo. lia.
  - eexists. reflexivity.
Qed.
