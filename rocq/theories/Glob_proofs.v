From Coq Require Import Lia ZifyBool ZifyNat ZifyN.
From Verif Require Import Glob_spec.

Lemma in_language_nil t : in_language [] t <-> t = [].
Proof. split; [intros (ps & F & ->); inversion F; reflexivity|intros ->; exists []; split; constructor]. Qed.
Lemma in_language_one i p t : i <> Asterisk -> (in_language (i :: p) t <-> exists c r, t = c :: r /\ accepts i c = true /\ in_language p r).
Proof.
  intros Hi. split.
  - intros (ps & F & ->). inversion F as [|? x ? xs H1 H2]; subst. cbn. assert (exists c, x = [c] /\ accepts i c = true) as (c & -> & A).
    { destruct i as [y| | |set]; cbn in *; [subst; exists y; split; [reflexivity|apply Ascii.eqb_refl]|destruct H1 as (c & ->); now exists c|now elim Hi|destruct H1 as (c & -> & H); now exists c]. }
    exists c, (concat xs). split; [reflexivity|]. split; [exact A|]. now exists xs.
  - intros (c & r & -> & A & ps & F & ->). exists ([c] :: ps). split; [|reflexivity]. constructor; [|exact F].
    destruct i as [y| | |set]; cbn in *; [apply Ascii.eqb_eq in A; now subst|now exists c|now elim Hi|now exists c].
Qed.
Lemma in_language_star p t : in_language (Asterisk :: p) t <-> exists a b, t = a ++ b /\ in_language p b.
Proof.
  split.
  - intros (ps & F & ->). inversion F as [|? x ? xs H1 H2]; subst. exists x, (concat xs). split; [reflexivity|]. now exists xs.
  - intros (a & b & -> & ps & F & ->). exists (a :: ps). split; [constructor; [exact Logic.I|exact F]|reflexivity].
Qed.
Lemma star_step p c t : in_language (Asterisk :: p) (c :: t) <-> in_language p (c :: t) \/ in_language (Asterisk :: p) t.
Proof.
  rewrite !in_language_star. split.
  - intros ([|x a] & b & E & H); cbn in E; [left; now rewrite E|]. injection E as -> ->. right. now exists a, b.
  - intros [H|(a & b & -> & H)]; [now exists [], (c :: t)|now exists (c :: a), b].
Qed.
Lemma star_grow p a t : in_language (Asterisk :: p) t -> in_language (Asterisk :: p) (a ++ t).
Proof. rewrite !in_language_star. intros (x & y & -> & H). exists (a ++ x), y. split; [now rewrite app_assoc|exact H]. Qed.

Lemma skip_ok p : forall n, match skip_wildcards p n with
  | None => ~ in_language (Asterisk :: p) n
  | Some (q, n') => (in_language (Asterisk :: p) n <-> in_language (Asterisk :: q) n') /\ length q <= length p /\ (match q with Question :: _ | Asterisk :: _ => False | _ => True end)
  end.
Proof.
  induction p as [|i p IH]; intros n; cbn [skip_wildcards].
  - split; [reflexivity|]. split; [lia|exact Logic.I].
  - destruct i as [c| | |set].
    + split; [reflexivity|]. split; [lia|exact Logic.I].
    + destruct n as [|c n].
      * rewrite in_language_star. intros (a & b & E & H). rewrite in_language_one in H by discriminate. destruct H as (d & r & -> & _). destruct a; discriminate E.
      * specialize (IH n). assert (X : in_language (Asterisk :: Question :: p) (c :: n) <-> in_language (Asterisk :: p) n).
        { rewrite !in_language_star. split.
          - intros (a & b & E & H). rewrite in_language_one in H by discriminate. destruct H as (d & r & -> & _ & H). destruct a as [|x a].
            + injection E as -> ->. now exists [], r.
            + cbn in E. injection E as -> ->. exists (a ++ [d]), r. split; [now rewrite <- app_assoc|exact H].
          - intros (a & b & -> & H). destruct a as [|x a] using rev_ind.
            + exists [], (c :: b). split; [reflexivity|]. rewrite in_language_one by discriminate. now exists c, b.
            + exists (c :: a), (x :: b). split; [cbn; now rewrite <- app_assoc|]. rewrite in_language_one by discriminate. now exists x, b. }
        destruct (skip_wildcards p n) as [[q n']|]; [|now rewrite X]. destruct IH as (I1 & I2 & I3). split; [now rewrite X|]. split; [cbn; lia|exact I3].
    + specialize (IH n). assert (X : in_language (Asterisk :: Asterisk :: p) n <-> in_language (Asterisk :: p) n).
      { rewrite in_language_star. split; [intros (a & b & -> & H); now apply star_grow|intros H; now exists [], n]. }
      destruct (skip_wildcards p n) as [[q n']|]; [|now rewrite X]. destruct IH as (I1 & I2 & I3). split; [now rewrite X|]. split; [cbn; lia|exact I3].
    + split; [reflexivity|]. split; [lia|exact Logic.I].
Qed.

Definition one (i : item) : Prop := i <> Asterisk.
Lemma run_reached p : forall n q m, run p n = Reached q m -> exists seg x q', p = seg ++ q /\ n = x ++ m /\ Forall one seg /\ length x = length seg /\ q = Asterisk :: q' /\
  (forall y, in_language q y -> in_language p (x ++ y)).
Proof.
  induction p as [|i p IH]; intros n q m; cbn [run]; [destruct n; discriminate|].
  assert (G : i <> Asterisk -> match n with c :: n' => if accepts i c then run p n' else Failed | [] => Failed end = Reached q m ->
    exists seg x q', i :: p = seg ++ q /\ n = x ++ m /\ Forall one seg /\ length x = length seg /\ q = Asterisk :: q' /\ (forall y, in_language q y -> in_language (i :: p) (x ++ y))).
  { intros Hi. destruct n as [|c n]; [discriminate|]. destruct (accepts i c) eqn:A; [|discriminate]. intros R. destruct (IH _ _ _ R) as (seg & x & q' & -> & -> & F & L & -> & K).
    exists (i :: seg), (c :: x), q'. split; [reflexivity|]. split; [reflexivity|]. split; [constructor; assumption|]. split; [cbn; lia|]. split; [reflexivity|].
    intros y Hy. rewrite in_language_one by exact Hi. exists c, (x ++ y). split; [reflexivity|]. split; [exact A|exact (K y Hy)]. }
  destruct i; try (apply G; discriminate). intros [= <- <-]. exists [], [], p. repeat (split; [constructor || reflexivity|]). intros y Hy. exact Hy.
Qed.
Lemma run_matched p : forall n, run p n = Matched -> in_language p n /\ Forall one p.
Proof.
  induction p as [|i p IH]; intros n; cbn [run]; [destruct n; [|discriminate]; rewrite in_language_nil; now split|].
  destruct i; try (destruct n as [|c' n]; [discriminate|]; destruct (accepts _ c') eqn:A; [|discriminate]; intros R; destruct (IH _ R); split; [rewrite in_language_one by discriminate; now exists c', n|constructor; [discriminate|assumption]]).
  discriminate.
Qed.
Lemma run_failed p : forall n, run p n = Failed -> ~ in_language p n.
Proof.
  induction p as [|i p IH]; intros n; cbn [run]; [destruct n; [discriminate|rewrite in_language_nil; discriminate]|].
  destruct i; [ | |discriminate|].
  all: intros R; rewrite in_language_one by discriminate; intros (d & r & -> & A & H); rewrite A in R; exact (IH _ R H).
Qed.
Lemma split_fixed seg q : Forall one seg -> forall b, in_language (seg ++ q) b -> exists x y, b = x ++ y /\ length x = length seg /\ in_language q y.
Proof.
  induction 1 as [|i seg Hi _ IH]; intros b H; [now exists [], b|]. cbn in H. rewrite in_language_one in H by exact Hi. destruct H as (c & r & -> & _ & H).
  destruct (IH r H) as (x & y & -> & L & K). exists (c :: x), y. split; [reflexivity|]. split; [cbn; lia|exact K].
Qed.

Lemma attempts_ok p : p <> [] -> (match p with Asterisk :: _ => False | _ => True end) -> forall n, match attempts p n with
  | Matched => in_language (Asterisk :: p) n
  | Reached q m => (in_language (Asterisk :: p) n <-> in_language q m) /\ length q < length p
  | Failed => ~ in_language (Asterisk :: p) n
  end.
Proof.
  intros Np Hp. induction n as [|c n IH]; cbn [attempts].
  - rewrite in_language_star. intros (a & b & E & H). destruct a; [|discriminate E]. cbn in E. subst b. destruct p as [|i p]; [now elim Np|].
    rewrite in_language_one in H by (intros ->; exact Hp). destruct H as (d & r & E & _). discriminate E.
  - destruct (run p (c :: n)) as [|q m|] eqn:R.
    + apply star_step. left. apply (run_matched _ _ R).
    + destruct (run_reached _ _ _ _ R) as (seg & x & q' & Ep & En & F & L & Eq & K). split.
      * split.
        { rewrite in_language_star. intros (a & b & E & H). rewrite Ep in H. destruct (split_fixed seg q F b H) as (x' & y & -> & L' & Hy).
          rewrite En in E. assert (exists z, m = z ++ y) as (z & ->).
          { exists (skipn (length x) (a ++ x')). rewrite app_assoc in E. apply (f_equal (skipn (length x))) in E. rewrite !skipn_app, skipn_all, Nat.sub_diag in E. cbn in E.
            replace (length x - length (a ++ x')) with 0 in E by (rewrite app_length; lia). rewrite skipn_app. exact E. }
          rewrite Eq in Hy |- *. now apply star_grow. }
        { intros H. apply star_step. left. rewrite En. exact (K m H). }
      * rewrite Ep, app_length. destruct seg; [|cbn; lia]. cbn in Ep. rewrite Ep, Eq in Hp. destruct Hp.
    + pose proof (run_failed _ _ R) as Fl. destruct (attempts p n) as [|q m|].
      * apply star_step. now right.
      * destruct IH as (I1 & I2). split; [|exact I2]. rewrite <- I1, star_step. tauto.
      * rewrite star_step. tauto.
Qed.

Lemma loop_ok fuel : forall p n, length p < fuel -> loop fuel p n = true <-> in_language p n.
Proof.
  induction fuel as [|f IH]; intros p n Hf; [lia|]. cbn [loop]. destruct p as [|i p].
  - rewrite in_language_nil. destruct n; [tauto|split; discriminate].
  - cbn in Hf.
    assert (G : i <> Asterisk -> match n with c :: n' => if accepts i c then loop f p n' else false | [] => false end = true <-> in_language (i :: p) n).
    { intros Hi. rewrite in_language_one by exact Hi. destruct n as [|c n].
      - split; [discriminate|]. intros (c & r & E & _). discriminate E.
      - destruct (accepts i c) eqn:A.
        + rewrite IH by lia. split; [intros H; now exists c, n|]. intros (d & r & [= <- <-] & _ & H). exact H.
        + split; [discriminate|]. intros (d & r & [= <- <-] & A' & _). congruence. }
    destruct i; try (apply G; discriminate). clear G. pose proof (skip_ok p n) as Sk. destruct (skip_wildcards p n) as [[q n']|]; [|split; [discriminate|intros H; elim (Sk H)]].
    destruct Sk as (S1 & S2 & S3). rewrite S1. destruct q as [|j q].
    { split; [intros _|reflexivity]. rewrite in_language_star. exists n', []. split; [now rewrite app_nil_r|now rewrite in_language_nil]. }
    pose proof (attempts_ok (j :: q) ltac:(discriminate) ltac:(destruct j; tauto) n') as At. destruct (attempts (j :: q) n') as [|q2 m|].
    + tauto.
    + destruct At as (A1 & A2). rewrite A1. apply IH. lia.
    + split; [discriminate|tauto].
Qed.

Section Bracket.
Variable bracket : str -> option ((ascii -> bool) * str).
Lemma special_false c : special c = false -> Ascii.eqb c "?" = false /\ Ascii.eqb c "*" = false /\ Ascii.eqb c "[" = false.
Proof. unfold special. rewrite !orb_false_iff. tauto. Qed.
Lemma items_consists p l : shortens bracket -> consists_of bracket p l -> forall fuel, length p <= fuel -> items_from bracket fuel p = l.
Proof.
  intros Sh H. induction H; intros [|f] L; cbn [length] in L; try lia; try reflexivity.
  - cbn [items_from]. rewrite Ascii.eqb_refl. f_equal. apply IHconsists_of. lia.
  - cbn [items_from]. change (Ascii.eqb "*" "?") with false. cbn iota. rewrite Ascii.eqb_refl. f_equal. apply IHconsists_of. lia.
  - cbn [items_from]. change (Ascii.eqb "[" "?") with false. change (Ascii.eqb "[" "*") with false. cbn iota. rewrite Ascii.eqb_refl, H. f_equal. apply IHconsists_of. specialize (Sh _ _ _ H). lia.
  - cbn [items_from]. change (Ascii.eqb "[" "?") with false. change (Ascii.eqb "[" "*") with false. cbn iota. rewrite Ascii.eqb_refl, H. f_equal. apply IHconsists_of. lia.
  - destruct (special_false c H) as (A & B & C). cbn [items_from]. rewrite A, B, C. f_equal. apply IHconsists_of. lia.
Qed.
Lemma consists_total : shortens bracket -> forall p, exists l, consists_of bracket p l.
Proof.
  intros Sh p. remember (length p) as k eqn:E. assert (length p <= k) as L by lia. clear E. revert p L. induction k as [|k IH]; intros p L.
  - destruct p; [|cbn in L; lia]. exists []. constructor.
  - destruct p as [|c r]; [exists []; constructor|]. cbn in L. destruct (IH r ltac:(lia)) as (l & H). destruct (special c) eqn:Sp.
    + unfold special in Sp. rewrite !orb_true_iff in Sp. destruct Sp as [[Sp|Sp]|Sp]; apply Ascii.eqb_eq in Sp; subst c.
      * eexists. now apply question with (l := l).
      * eexists. now apply asterisk with (l := l).
      * destruct (bracket r) as [[set r']|] eqn:B; [|eexists; now apply unterminated with (l := l)]. specialize (Sh _ _ _ B). destruct (IH r' ltac:(lia)) as (l' & H'). eexists. exact (bracketed _ _ _ _ _ B H').
    + eexists. now apply ordinary with (l := l).
Qed.
Lemma language_lemma pattern text l : shortens bracket -> consists_of bracket (c_str pattern) l ->
  match_pattern bracket pattern text = true <-> in_language l (c_str text).
Proof.
  intros Sh H. unfold match_pattern, fnmatch, items. rewrite (items_consists _ _ Sh H _ (le_n _)). apply loop_ok. lia.
Qed.
Lemma c_str_id t : without_nul t -> c_str t = t.
Proof.
  induction t as [|c t IH]; [reflexivity|]. intros H. cbn [c_str]. destruct (Ascii.eqb c "000") eqn:E; [apply Ascii.eqb_eq in E; subst c; elim H; now left|]. f_equal. apply IH. intros K. apply H. now right.
Qed.
Lemma language_chars (l : list item) (t u : str) : Forall2 (fun i c => i <> Asterisk /\ forall x, accepts i x = true <-> x = c) l t -> in_language l u <-> u = t.
Proof.
  intros F. revert u. induction F as [|i c l t (Hi & A) F IH]; intros u; [apply in_language_nil|]. rewrite in_language_one by exact Hi. split.
  - intros (d & r & -> & Ad & H). apply A in Ad. apply IH in H. congruence.
  - intros ->. exists c, t. split; [reflexivity|]. split; [now apply A|now apply IH].
Qed.
Lemma quoted_consists : quotes_special bracket -> forall t, exists l, consists_of bracket (quoted t) l /\ Forall2 (fun i c => i <> Asterisk /\ forall x, accepts i x = true <-> x = c) l t.
Proof.
  intros Q. induction t as [|c t (l & C & F)]; [exists []; split; constructor|]. cbn [quoted flat_map]. fold (quoted t). destruct (special c) eqn:Sp.
  - destruct (Q c (quoted t) Sp) as (set & B & St). exists (Bracket set :: l). split; [exact (bracketed _ _ _ _ _ B C)|]. constructor; [|exact F]. split; [discriminate|exact St].
  - exists (Character c :: l). split; [now apply ordinary|]. constructor; [|exact F]. split; [discriminate|]. intros x. cbn. rewrite Ascii.eqb_eq. split; congruence.
Qed.
Lemma quoted_nul t : without_nul t -> without_nul (quoted t).
Proof.
  intros H K. unfold quoted in K. apply in_flat_map in K. destruct K as (c & I & K). destruct (special c) eqn:Sp.
  - destruct K as [K|[K|[K|[]]]]; [discriminate K| |discriminate K]. subst c. discriminate Sp.
  - destruct K as [->|[]]. exact (H I).
Qed.
Lemma quoted_lemma t u : shortens bracket -> quotes_special bracket -> without_nul t -> without_nul u -> match_pattern bracket (quoted t) u = true <-> u = t.
Proof.
  intros Sh Q Nt Nu. destruct (quoted_consists Q t) as (l & C & F). rewrite <- (c_str_id (quoted t) (quoted_nul t Nt)) in C. rewrite (language_lemma (quoted t) u l Sh C), (c_str_id u Nu). now apply language_chars.
Qed.
Lemma plain_quoted t : forallb (fun c => negb (special c)) t = true -> quoted t = t.
Proof. induction t as [|c t IH]; [reflexivity|]. cbn. rewrite andb_true_iff. intros (A & B). destruct (special c); [discriminate A|]. cbn. f_equal. exact (IH B). Qed.
Lemma star_lemma u : shortens bracket -> match_pattern bracket ["*"%char] u = true.
Proof.
  intros Sh. apply (language_lemma _ u [Asterisk] Sh); [cbn; constructor; constructor|]. rewrite in_language_star. exists (c_str u), []. split; [now rewrite app_nil_r|now rewrite in_language_nil].
Qed.
End Bracket.

(** * The example of bracket expressions *)
Lemma members_short fuel : forall first p set s1 r, members fuel first p set = Some (s1, r) -> length r < length p.
Proof.
  induction fuel as [|f IH]; intros first p set s1 r; cbn [members]; [discriminate|]. destruct p as [|c p]; [discriminate|]. destruct (Ascii.eqb c "]" && negb first).
  - intros [= _ <-]. cbn. lia.
  - destruct p as [|d [|e p]].
    + intros H. specialize (IH _ _ _ _ _ H). cbn in *. lia.
    + intros H. specialize (IH _ _ _ _ _ H). cbn in *. lia.
    + destruct (Ascii.eqb d "-" && negb (Ascii.eqb e "]")); intros H; specialize (IH _ _ _ _ _ H); cbn in *; lia.
Qed.
Lemma simple_shortens : shortens simple_bracket.
Proof.
  intros r set r'. unfold simple_bracket. destruct r as [|c r]; [discriminate|]. destruct (Ascii.eqb c "!").
  - destruct (members (length r) true r (fun _ => false)) as [[s1 r1]|] eqn:E; [|discriminate]. intros [= _ <-]. apply members_short in E. cbn. lia.
  - intros H. exact (members_short _ _ _ _ _ _ H).
Qed.
Lemma simple_quotes : quotes_special simple_bracket.
Proof.
  intros c r Sp. exists (fun x => false || Ascii.eqb x c). split; [|intros x; cbn; apply Ascii.eqb_eq].
  unfold special in Sp. rewrite !orb_true_iff in Sp. destruct Sp as [[Sp|Sp]|Sp]; apply Ascii.eqb_eq in Sp; subst c; destruct r; reflexivity.
Qed.

(** * Access modes *)
Lemma c_str_read t : read_as t (c_str t).
Proof.
  induction t as [|c t (N & I)]; [split; [intros []|left; reflexivity]|]. cbn [c_str]. destruct (Ascii.eqb c "000") eqn:E.
  - apply Ascii.eqb_eq in E. subst c. split; [intros []|right; exists t; reflexivity].
  - split; [intros [F|F]; [subst c; discriminate E|exact (N F)]|]. destruct I as [I|(r & I)]; [left; rewrite <- I; reflexivity|right; exists r; rewrite I at 1; reflexivity].
Qed.
Lemma read_as_c_str t u : read_as t u -> c_str t = u.
Proof.
  intros (N & [->|(r & ->)]); [exact (c_str_id u N)|]. induction u as [|c u IH]; [reflexivity|]. cbn [app c_str]. destruct (Ascii.eqb c "000") eqn:E; [apply Ascii.eqb_eq in E; subst c; elim N; now left|].
  f_equal. apply IH. intro I. apply N. now right.
Qed.
Lemma read_as_lemma bracket pattern text p u l : shortens bracket -> read_as pattern p -> read_as text u -> consists_of bracket p l -> match_pattern bracket pattern text = true <-> in_language l u.
Proof. intros H P U C. apply read_as_c_str in P. apply read_as_c_str in U. subst p u. exact (language_lemma bracket pattern text l H C). Qed.
Lemma read_total bracket pattern : shortens bracket -> exists p l, read_as pattern p /\ consists_of bracket p l.
Proof. intro H. destruct (consists_total bracket H (c_str pattern)) as (l & C). exists (c_str pattern), l. split; [apply c_str_read|exact C]. Qed.

Lemma modes_part a b : (a < 8 -> b < 8 -> mode_or a b < 8 /\ mode_and (mode_or a b) a = a /\ (mode_and a b = b <-> forall k, N.testbit b k = true -> N.testbit a k = true))%N.
Proof.
  intros Ha Hb. unfold mode_or, mode_and. split; [|split].
  - change 8%N with (2 ^ 3)%N. apply N.div_small_iff; [discriminate|]. rewrite <- N.shiftr_div_pow2, N.shiftr_lor, !N.shiftr_div_pow2, !N.div_small by (cbn; lia). reflexivity.
  - apply N.bits_inj. intros k. rewrite N.land_spec, N.lor_spec. now destruct (N.testbit a k), (N.testbit b k).
  - split.
    + intros E k Hk. rewrite <- E, N.land_spec, andb_true_iff in Hk. tauto.
    + intros H. apply N.bits_inj. intros k. rewrite N.land_spec. destruct (N.testbit b k) eqn:B; [now rewrite (H k B)|apply andb_false_r].
Qed.
Lemma modes_lemma a b k : (a < 8 -> b < 8 -> mode_or a b < 8 /\ mode_and a b < 8 /\
  (N.testbit (mode_or a b) k = true <-> N.testbit a k = true \/ N.testbit b k = true) /\ (N.testbit (mode_and a b) k = true <-> N.testbit a k = true /\ N.testbit b k = true) /\
  (mode_and a b = b <-> forall k, N.testbit b k = true -> N.testbit a k = true))%N.
Proof.
  intros Ha Hb. destruct (modes_part a b Ha Hb) as (P & _ & R). split; [exact P|]. unfold mode_and, mode_or in *. split; [|split; [rewrite N.lor_spec; apply orb_true_iff|split; [rewrite N.land_spec; apply andb_true_iff|exact R]]].
  change 8%N with (2 ^ 3)%N. apply N.div_small_iff; [discriminate|]. rewrite <- N.shiftr_div_pow2, N.shiftr_land, !N.shiftr_div_pow2, !N.div_small by (cbn; lia). reflexivity.
Qed.
