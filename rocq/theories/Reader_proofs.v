From Coq Require Import List Lia Bool.
From Verif Require Import Str Str_spec Str_proofs StrUtils_model StrUtils_spec StrUtils_proofs Ros2_spec Ros2_proofs
  Reader_model Reader_spec.

Lemma not_contains_char c t : ~ In c t -> ~ contains t [c].
Proof. intros H (u & v & ->). apply H. apply in_or_app. right. left. reflexivity. Qed.

Lemma splits_join c : forall pieces, pieces <> [] -> Forall (fun p => ~ In c p) pieces ->
  splits [c] (join [c] pieces) pieces.
Proof.
  induction pieces as [|x [|y l] IH]; intros Hne Hf; [contradiction| |]; apply Forall_cons_iff in Hf as [Hx Hf].
  - apply sp_last. apply not_contains_char. exact Hx.
  - rewrite join_cons. eapply sp_cut; [apply leftmost_fresh; exact Hx|]. apply IH; [discriminate|exact Hf].
Qed.

Lemma splits_unique d t l : splits d t l -> forall l', splits d t l' -> l = l'.
Proof.
  intros H. induction H as [t Hc|t u v l Hl Hs IH]; intros l' H'; destruct H' as [t Hc'|t u' v' l' Hl' Hs'].
  - reflexivity.
  - exfalso. apply Hc. destruct Hl' as [-> _]. exists u', v'. reflexivity.
  - exfalso. apply Hc'. destruct Hl as [-> _]. exists u, v. reflexivity.
  - destruct (leftmost_inj _ _ _ _ _ _ Hl Hl') as [<- <-]. f_equal. apply IH. exact Hs'.
Qed.

Lemma split_join_char c pieces : pieces <> [] -> Forall (fun p => ~ In c p) pieces ->
  split_string (S (length (join [c] pieces))) (join [c] pieces) [c] = Some pieces.
Proof.
  intros Hne Hf. destruct (split_string_lemma (join [c] pieces) [c] (S (length (join [c] pieces)))) as (l & E & Hs);
    [discriminate|lia|].
  rewrite E. f_equal. eapply splits_unique; [exact Hs|]. apply splits_join; assumption.
Qed.

Lemma pieces_exist c : forall u, exists parts, parts <> [] /\ Forall (fun p => ~ In c p) parts /\ u = join [c] parts.
Proof.
  intros u. destruct (split_string_lemma u [c] (S (length u))) as (l & _ & Hs); [discriminate|lia|].
  destruct (splits_props _ _ _ Hs) as (Hne & Hj & Hf). exists l. split; [exact Hne|]. split; [|symmetry; exact Hj].
  apply Forall_forall. intros p Hp Hc. rewrite Forall_forall in Hf. apply (Hf p Hp).
  apply in_split in Hc as (a & b & ->). exists a, b. reflexivity.
Qed.

(** ** The quoted argument *)

Lemma ends_quoted_snoc t : ends_quoted (t ++ [quote]) = true.
Proof. unfold ends_quoted. rewrite rev_app_distr. reflexivity. Qed.

Lemma ends_quoted_true t : ends_quoted t = true -> exists u, t = u ++ [quote].
Proof.
  unfold ends_quoted. intros H. destruct (rev t) as [|c r] eqn:E; [discriminate|].
  apply Ascii.eqb_eq in H. subst c. exists (rev r).
  rewrite <- (rev_involutive t), E. reflexivity.
Qed.

(** [ps] each preceded by a space *)
Definition spaced (ps : list str) : str := flat_map (fun p => space :: p) ps.

Lemma join_spaced p ps : join [space] (p :: ps) = p ++ spaced ps.
Proof.
  revert p. induction ps as [|q ps IH]; intros p; [cbn; rewrite app_nil_r; reflexivity|].
  rewrite join_cons, IH. reflexivity.
Qed.

Lemma unquote_quoted t : unquote (quote :: t ++ [quote]) = t.
Proof.
  unfold unquote. change (quote :: t ++ [quote]) with ((quote :: t) ++ [quote]).
  rewrite ends_quoted_snoc, app_length. cbn [length]. replace (S (length t) + 1 - 2) with (length t) by lia.
  unfold substr. cbn [app skipn]. apply firstn_len_app.
Qed.

Lemma join_more_quoted t more : ~ In quote t -> (forall r, t <> space :: r) ->
  forall ps j, j <> [] -> j ++ spaced ps = quote :: t ++ [quote] ->
  join_more j (ps ++ more) = (quote :: t ++ [quote], more).
Proof.
  intros Hq Hs. induction ps as [|p ps IH]; intros j Hj E.
  - cbn [spaced flat_map app] in *. rewrite app_nil_r in E. subst j.
    destruct more; [reflexivity|]. cbn [join_more].
    change (quote :: t ++ [quote]) with ((quote :: t) ++ [quote]). rewrite ends_quoted_snoc. reflexivity.
  - change (spaced (p :: ps)) with (space :: p ++ spaced ps) in E. cbn [app join_more].
    destruct (ends_quoted j) eqn:Eq.
    + exfalso. apply ends_quoted_true in Eq as (u & ->). rewrite <- app_assoc in E. cbn [app] in E.
      destruct u as [|x u]; cbn [app] in E.
      * injection E as E. destruct t as [|c t]; cbn in E; [discriminate|]. injection E as <- _. exact (Hs t eq_refl).
      * injection E as -> E. apply Hq.
        assert (Hl : length u < length t).
        { apply (f_equal (@length ascii)) in E. rewrite !app_length in E. cbn [length] in E. unfold str in *. lia. }
        apply (f_equal (fun l => nth_error l (length u))) in E.
        rewrite nth_error_app2, Nat.sub_diag in E by lia. cbn in E.
        rewrite nth_error_app1 in E by exact Hl. symmetry in E. eapply nth_error_In. exact E.
    + rewrite IH; [reflexivity|destruct j; discriminate|]. rewrite <- app_assoc. exact E.
Qed.

(** ** Whole lines *)

Definition tokens_of (a : argument) (ts : list str) : Prop :=
  ts <> [] /\ Forall (fun p => ~ In space p) ts /\ join [space] ts = write a.

Lemma join_app_ne sep (a b : list str) : a <> [] -> b <> [] -> join sep (a ++ b) = join sep a ++ sep ++ join sep b.
Proof.
  intros Ha Hb. induction a as [|x [|y a] IH]; [contradiction| |].
  - destruct b as [|z b]; [contradiction|]. reflexivity.
  - change ((x :: y :: a) ++ b) with (x :: (y :: a) ++ b). change ((y :: a) ++ b) with (y :: a ++ b) in *.
    rewrite !join_cons. rewrite IH by discriminate. rewrite <- !app_assoc. reflexivity.
Qed.

Lemma join_quoted_step fuel a ts more : writable a -> ~ leading_space a -> tokens_of a ts ->
  length (ts ++ more) <= fuel ->
  exists fuel', join_quoted_loop fuel (ts ++ more) = value a :: join_quoted_loop fuel' more /\ length more <= fuel'.
Proof.
  intros [Hq Hb] Hl (Hne & Hf & Hj) Hfuel. destruct ts as [|t ts]; [contradiction|].
  cbn [app length] in *. destruct fuel as [|fuel]; [lia|]. rewrite app_length in Hfuel.
  exists fuel. split; [|lia]. cbn [join_quoted_loop].
  destruct a as [[] v]; unfold write in Hj; cbn [quoted value] in *.
  - rewrite join_spaced in Hj.
    assert (Ht : exists t', t = quote :: t').
    { destruct t as [|c t]; cbn in Hj; [|injection Hj as -> _; eexists; reflexivity].
      destruct ts; cbn in Hj; discriminate. }
    destruct Ht as (t' & ->). rewrite Ascii.eqb_refl.
    rewrite (join_more_quoted v more); [rewrite unquote_quoted; reflexivity|exact Hq| |discriminate|exact Hj].
    intros r ->. apply Hl. split; [reflexivity|]. exists r. reflexivity.
  - assert (ts = []) as ->.
    { destruct ts as [|y ts]; [reflexivity|]. exfalso. apply (Hb eq_refl). rewrite <- Hj, join_cons.
      apply in_or_app. right. left. reflexivity. }
    cbn [join] in Hj. subst v. cbn [app]. destruct t as [|c t]; [reflexivity|].
    destruct (Ascii.eqb_spec c quote) as [->|]; [|reflexivity]. exfalso. apply Hq. left. reflexivity.
Qed.

Lemma line_tokens : forall args, args <> [] -> Forall writable args -> Forall (fun a => ~ leading_space a) args ->
  exists ts, ts <> [] /\ Forall (fun p => ~ In space p) ts /\ join [space] ts = write_line args /\
    forall fuel, length ts <= fuel -> join_quoted_loop fuel ts = map value args.
Proof.
  induction args as [|a args IH]; intros Hne Hw Hl; [contradiction|].
  apply Forall_cons_iff in Hw as [Ha Hw]. apply Forall_cons_iff in Hl as [Hla Hl].
  destruct (pieces_exist space (write a)) as (ta & Hna & Hfa & Ea).
  assert (Hta : tokens_of a ta) by (split; [exact Hna|split; [exact Hfa|symmetry; exact Ea]]).
  destruct args as [|b args].
  - exists ta. split; [exact Hna|]. split; [exact Hfa|]. split; [symmetry; exact Ea|]. intros fuel Hf.
    destruct (join_quoted_step fuel a ta [] Ha Hla Hta) as (fuel' & E & _); [rewrite app_nil_r; exact Hf|].
    rewrite app_nil_r in E. rewrite E. destruct fuel'; reflexivity.
  - destruct IH as (ts & Hnt & Hft & Et & Hr); [discriminate|exact Hw|exact Hl|].
    exists (ta ++ ts). split; [destruct ta; [contradiction|discriminate]|]. split; [apply Forall_app; split; assumption|].
    split.
    + rewrite join_app_ne by assumption. rewrite Et, <- Ea. reflexivity.
    + intros fuel Hf. destruct (join_quoted_step fuel a ta ts Ha Hla Hta Hf) as (fuel' & E & Hf').
      etransitivity; [exact E|]. rewrite (Hr fuel' Hf'). reflexivity.
Qed.

Lemma read_back_lemma : forall args, args <> [] -> Forall writable args -> Forall (fun a => ~ leading_space a) args ->
  read_arguments (write_line args) = Some (map value args).
Proof.
  intros args Hne Hw Hl. destruct (line_tokens args Hne Hw Hl) as (ts & Hnt & Hft & Et & Hr).
  unfold read_arguments, join_quoted_strings. rewrite <- Et, split_join_char by assumption. f_equal. apply Hr. apply le_n.
Qed.

(** ** Every line *)

Lemma join_more_length : forall rest j, length (snd (join_more j rest)) <= length rest.
Proof.
  induction rest as [|t rest IH]; intros j; cbn [join_more]; [cbn; lia|].
  destruct (ends_quoted j); cbn [snd length]; [lia|]. specialize (IH (j ++ space :: t)). lia.
Qed.

Lemma some_argument_lemma : forall line, exists first rest, read_arguments line = Some (first :: rest).
Proof.
  intros line. unfold read_arguments.
  destruct (split_string_lemma line [space] (S (length line))) as (l & E & Hs); [discriminate|lia|].
  rewrite E. destruct (splits_props _ _ _ Hs) as (Hne & _ & _). destruct l as [|t l]; [contradiction|].
  unfold join_quoted_strings. cbn [length join_quoted_loop].
  destruct t as [|c t]; [eauto|]. destruct (Ascii.eqb c quote); [|eauto].
  destruct (join_more (c :: t) l); eauto.
Qed.

Lemma leading_space_lemma : exists a, writable a /\ leading_space a /\
  read_arguments (write_line [a]) <> Some [value a].
Proof.
  exists {| quoted := true; value := s " hello" |}. split; [split; [|discriminate]|].
  - cbn. intuition discriminate.
  - split; [split; [reflexivity|]; exists (s "hello"); reflexivity|]. vm_compute. discriminate.
Qed.

(** for every argument beginning with a space, what is read first is an empty argument *)
Lemma leading_space_always : forall v, ~ In quote v -> exists rest,
  read_arguments (write_line [{| quoted := true; value := space :: v |}]) = Some ([] :: rest).
Proof.
  intros v Hv. unfold read_arguments.
  destruct (pieces_exist space (v ++ [quote])) as (ps & Hne & Hf & E).
  assert (El : write_line [{| quoted := true; value := space :: v |}] = join [space] ([quote] :: ps)).
  { rewrite join_spaced. destruct ps as [|p ps]; [contradiction|]. rewrite join_spaced in E. cbn [write_line map join write quoted value].
    change (spaced (p :: ps)) with (space :: p ++ spaced ps). rewrite <- E. reflexivity. }
  rewrite El, split_join_char; [|discriminate|constructor; [cbn; intuition discriminate|exact Hf]].
  unfold join_quoted_strings. cbn [length join_quoted_loop]. rewrite Ascii.eqb_refl.
  destruct ps as [|p ps]; [contradiction|]. cbn [join_more].
  replace (ends_quoted [quote]) with true by reflexivity. cbv iota. eexists. reflexivity.
Qed.
