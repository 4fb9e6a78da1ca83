From Coq Require Import ZArith List Lia Bool ZifyBool ZifyNat.
From Verif Require Import Str Str_proofs Outcome History_model History_spec History_proofs Editor_model Editor_spec.
Local Open Scope Z_scope.

(** ** The cursor invariant, for arbitrary bytes *)

Definition cursor_ok (e : editor) : Prop := (cursor_index e <= length (read_str e))%nat.

Lemma erase_at_length l i : (i < length l)%nat -> length (erase_at l i) = (length l - 1)%nat.
Proof. intros H. unfold erase_at. rewrite app_length, firstn_length, skipn_length. unfold str in *. lia. Qed.

Lemma key_previous_ok e w o e' : key_previous e w = Ret (o, e') -> cursor_ok e -> cursor_ok e'.
Proof.
  unfold key_previous, obind, compute_lines_needed, quiet. intros H Hc.
  destruct (get_previous_command (hist e)) as [r| | | |]; try discriminate.
  destruct (fst r) as [|x l].
  - injection H as _ <-. exact Hc.
  - destruct (w =? 0); [discriminate|]. injection H as _ <-. unfold cursor_ok. cbn. lia.
Qed.

Lemma key_next_ok e w o e' : key_next e w = Ret (o, e') -> cursor_ok e -> cursor_ok e'.
Proof.
  unfold key_next, obind, compute_lines_needed, quiet. intros H Hc.
  destruct (get_next_command (hist e)) as [r| | | |]; try discriminate.
  destruct (w =? 0); [discriminate|]. injection H as _ <-. unfold cursor_ok. cbn. lia.
Qed.

Lemma step_cursor e ev o e' : editor_step e ev = Ret (o, e') -> cursor_ok e -> cursor_ok e'.
Proof.
  unfold editor_step, quiet, key_enter, key_ctrl_c, key_left, key_right, key_home, key_end, key_backspace, key_delete, key_char.
  intros H Hc.
  destruct (at_ e);
    repeat match type of H with
      | (if ?b then _ else _) = _ => destruct b eqn:?
      | key_previous _ _ = _ => exact (key_previous_ok _ _ _ _ H Hc)
      | key_next _ _ = _ => exact (key_next_ok _ _ _ _ H Hc)
      end; try discriminate; unfold quiet in H; injection H as _ <-; try exact Hc;
    unfold cursor_ok in *; cbn [start_ cursor_index read_str length]; rewrite ?app_length, ?firstn_length; cbn [length];
    rewrite ?skipn_length, ?erase_at_length by lia; try lia.
  - destruct (0 <? _)%nat; lia.
  - destruct (_ <? _)%nat eqn:E; lia.
Qed.

Lemma run_cursor : forall evs e ls e', editor_run e evs = Ret (ls, e') -> cursor_ok e -> cursor_ok e'.
Proof.
  induction evs as [|ev evs IH]; intros e ls e' H Hc; cbn [editor_run] in H.
  - injection H as _ <-. exact Hc.
  - destruct (editor_step e ev) as [[o e1]| | | |] eqn:E; try discriminate. cbn [obind fst snd] in H.
    destruct (editor_run e1 evs) as [[ls1 e2]| | | |] eqn:E2; try discriminate. cbn in H. injection H as _ <-.
    eapply IH; [exact E2|]. eapply step_cursor; eauto.
Qed.

Lemma cursor_inside_lemma : forall evs ls e, editor_run editor_init evs = Ret (ls, e) ->
  (cursor_index e <= length (read_str e))%nat.
Proof. intros evs ls e H. apply (run_cursor _ _ _ _ H). unfold cursor_ok. cbn. lia. Qed.

(** ** Refinement *)

Definition hist_rel (d : desk) (h : history) : Prop :=
  (no_past d = true /\ past d = browser_init /\ empty_hist (nexts d) h /\ (nexts d <= 1)%nat) \/
  (no_past d = false /\ repr (past d) h /\ command_history_ h <> []).

Definition rel (d : desk) (e : editor) : Prop :=
  at_ e = MStart /\ read_str e = text d /\ cursor_index e = length (before d) /\ hist_rel d (hist e).

Lemma no_past_repr p h : repr p h -> command_history_ h <> [] ->
  match older p, newer p with [], [] => true | _, _ => false end = false.
Proof.
  intros [Hl _] Hne. destruct (older p), (newer p); try reflexivity. cbn in Hl. contradiction.
Qed.

Lemma hist_rel_prev d h n : hist_rel d h -> size_ok h (S n) ->
  exists h' l p, browser_step (past d) HPrev = (Some l, p) /\ get_previous_command h = Ret (l, h') /\
  size_ok h' n /\ forall b a, hist_rel {| before := b; after := a; past := p; nexts := nexts d |} h'.
Proof.
  intros [(Hn & Hp & He & Hk)|(Hn & Hr & Hne)] Hs.
  - exists h, [], browser_init. rewrite Hp. split; [reflexivity|]. split.
    + destruct He as [He _]. unfold get_previous_command, hsize. rewrite He. reflexivity.
    + split; [unfold size_ok in *; lia|]. intros b a. left. repeat split; try (apply He); try exact Hk.
  - destruct (step_repr (past d) h HPrev n Hr (or_intror Hne) Hs) as (h' & E & Hr' & Hs').
    destruct (browser_step (past d) HPrev) as [o p] eqn:Eb. cbn [fst snd] in *.
    cbn [hist_step] in E. destruct (get_previous_command h) as [[l h1]| | | |] eqn:Eg; try discriminate.
    cbn [obind fst snd] in E. injection E as E1 ->.
    exists h', l, p. split; [rewrite E1; reflexivity|]. split; [reflexivity|]. split; [exact Hs'|].
    intros b a.
    assert (Hne' : command_history_ h' <> []).
    { destruct Hr' as [Hl' _], Hr as [Hl _]. pose proof (browser_contents (past d) HPrev) as Hb. cbn zeta in Hb.
      rewrite Eb in Hb. cbn [snd] in Hb. rewrite Hl', Hb, <- Hl. exact Hne. }
    right. split; [apply (no_past_repr p h' Hr' Hne')|]. split; assumption.
Qed.

Lemma hist_rel_next d h n : hist_rel d h -> no_past d = false -> size_ok h (S n) ->
  exists h' l p, browser_step (past d) HNext = (Some l, p) /\ get_next_command h = Ret (l, h') /\
  size_ok h' n /\ forall b a, hist_rel {| before := b; after := a; past := p; nexts := nexts d |} h'.
Proof.
  intros [(Hn & _)|(Hn & Hr & Hne)] Hn' Hs; [congruence|].
  destruct (step_repr (past d) h HNext n Hr (or_intror Hne) Hs) as (h' & E & Hr' & Hs').
  destruct (browser_step (past d) HNext) as [o p] eqn:Eb. cbn [fst snd] in *.
  cbn [hist_step] in E. destruct (get_next_command h) as [[l h1]| | | |] eqn:Eg; try discriminate.
  cbn [obind fst snd] in E. injection E as E1 ->.
  exists h', l, p. split; [rewrite E1; reflexivity|]. split; [reflexivity|]. split; [exact Hs'|].
  intros b a.
  assert (Hne' : command_history_ h' <> []).
  { destruct Hr' as [Hl' _], Hr as [Hl _]. pose proof (browser_contents (past d) HNext) as Hb. cbn zeta in Hb.
    rewrite Eb in Hb. cbn [snd] in Hb. rewrite Hl', Hb, <- Hl. exact Hne. }
  right. split; [apply (no_past_repr p h' Hr' Hne')|]. split; assumption.
Qed.

Lemma hist_rel_add d h n t : hist_rel d h -> size_ok h (S n) ->
  size_ok (add_command h t) n /\
  forall b a, hist_rel {| before := b; after := a; past := snd (browser_step (past d) (HAdd t)); nexts := nexts d |} (add_command h t).
Proof.
  intros Hrel Hs. destruct t as [|c t].
  - split; [unfold size_ok in *; cbn [add_command]; lia|]. intros b a. cbn [browser_step snd add_command].
    destruct Hrel as [H|H]; [left|right]; exact H.
  - assert (Hsz : size_ok (add_command h (c :: t)) n).
    { unfold size_ok in *. cbn [add_command command_history_]. rewrite app_length. cbn [length]. lia. }
    split; [exact Hsz|]. intros b a. right. cbn [no_past past].
    destruct Hrel as [(Hn & Hp & He & Hk)|(Hn & Hr & Hne)].
    + rewrite Hp. split; [reflexivity|]. destruct He as [He _]. split; [split|]; cbn [add_command command_history_]; rewrite He;
        [reflexivity|reflexivity|discriminate].
    + destruct (step_repr (past d) h (HAdd (c :: t)) n Hr (or_intror Hne) Hs) as (h' & E & Hr' & _).
      assert (Eh : h' = add_command h (c :: t)) by (cbn [hist_step] in E; injection E as E; symmetry; exact E).
      subst h'. split; [reflexivity|]. split; [exact Hr'|]. cbn. intros C. apply app_eq_nil in C as [_ C]. discriminate.
Qed.

Lemma text_put d b a : text (put d b a) = rev b ++ a.
Proof. reflexivity. Qed.

Lemma typed_char c : ~ In c (map ascii_of_nat [27; 10; 13; 8; 127; 3]%nat) ->
  forall e w ig, at_ e = MStart -> editor_step e {| ch := c; width := w; ignoring := ig |} = key_char e c.
Proof.
  intros H e w ig Ha. unfold editor_step. rewrite Ha. cbn [ch].
  assert (Hne : forall x, In x (map ascii_of_nat [27; 10; 13; 8; 127; 3]%nat) -> Ascii.eqb c x = false).
  { intros x Hx. apply Ascii.eqb_neq. intros ->. exact (H Hx). }
  unfold ESC, LF, CR, BS, DEL, ETX. rewrite !Hne by (cbn; tauto). reflexivity.
Qed.

Lemma run_app : forall a e b, editor_run e (a ++ b) =
  obind (editor_run e a) (fun r => obind (editor_run (snd r) b) (fun q => Ret (fst r ++ fst q, snd q))).
Proof.
  induction a as [|ev a IH]; intros e b.
  - cbn. destruct (editor_run e b) as [[? ?]| | | |]; reflexivity.
  - cbn [app editor_run]. destruct (editor_step e ev) as [[o e1]| | | |]; try reflexivity. cbn [obind fst snd].
    rewrite IH. destruct (editor_run e1 a) as [[l1 e2]| | | |]; try reflexivity. cbn [obind fst snd].
    destruct (editor_run e2 b) as [[l2 e3]| | | |]; try reflexivity. cbn [obind fst snd].
    destruct o; reflexivity.
Qed.

Lemma firstn_before d : firstn (length (before d)) (text d) = rev (before d).
Proof. unfold text. rewrite <- (rev_length (before d)). apply firstn_len_app. Qed.

Lemma skipn_before d : skipn (length (before d)) (text d) = after d.
Proof. unfold text. rewrite <- (rev_length (before d)). apply skipn_len_app. Qed.

Lemma text_length d : length (text d) = (length (before d) + length (after d))%nat.
Proof. unfold text. rewrite app_length, rev_length. reflexivity. Qed.

Lemma erase_app (a b : str) c : erase_at (a ++ c :: b) (length a) = a ++ b.
Proof.
  unfold erase_at. rewrite firstn_len_app. f_equal.
  replace (S (length a)) with (length (a ++ [c])) by (rewrite app_length; cbn; lia).
  replace (a ++ c :: b) with ((a ++ [c]) ++ b) by (rewrite <- app_assoc; reflexivity). apply skipn_len_app.
Qed.

(** result of a run of the editor on one key *)
Definition key_result (d : desk) (k : key) (n : nat) (r : outcome (list str * editor)) : Prop :=
  match desk_step d k with
  | None => r = UB
  | Some (o, d') =>
      exists e', r = Ret (match o with Some l => [l] | None => [] end, e') /\ rel d' e' /\ size_ok (hist e') n
  end.

Lemma size_weaken h n : size_ok h (S n) -> size_ok h n.
Proof. unfold size_ok. lia. Qed.

Lemma hist_rel_same d d' h : past d' = past d -> nexts d' = nexts d -> hist_rel d h -> hist_rel d' h.
Proof. intros Hp Hn H. unfold hist_rel, no_past in *. rewrite Hp, Hn. exact H. Qed.

Lemma run_single e ev r : editor_step e ev = r ->
  editor_run e [ev] = obind r (fun x => Ret (match fst x with Some l => [l] | None => [] end, snd x)).
Proof. intros <-. cbn. destruct (editor_step e ev) as [[[?|] ?]| | | |]; reflexivity. Qed.

Lemma run_esc3 e ev1 ev2 ev3 : at_ e = MStart -> ch ev1 = ESC ->
  editor_run e [ev1; ev2; ev3] =
  obind (editor_step (goto e MLetter) ev3) (fun x => Ret (match fst x with Some l => [l] | None => [] end, snd x)).
Proof.
  intros Ha E1. cbn [editor_run]. unfold editor_step at 1. rewrite Ha, E1. cbn [Ascii.eqb]. rewrite Ascii.eqb_refl.
  cbn [quiet obind fst snd]. unfold editor_step at 1. cbn [at_ goto quiet obind fst snd].
  change (goto (goto e MBracket) MLetter) with (goto e MLetter).
  destruct (editor_step (goto e MLetter) ev3) as [[[?|] ?]| | | |]; reflexivity.
Qed.

Lemma run_esc4 e ev1 ev2 ev3 ev4 k : at_ e = MStart -> ch ev1 = ESC -> ch ev3 = k ->
  In k (s "2356") ->
  editor_run e [ev1; ev2; ev3; ev4] =
  obind (editor_step (goto e (MTilde k)) ev4) (fun x => Ret (match fst x with Some l => [l] | None => [] end, snd x)).
Proof.
  intros Ha E1 E3 Hk. change [ev1; ev2; ev3; ev4] with ([ev1; ev2; ev3] ++ [ev4]). rewrite run_app, run_esc3 by assumption.
  assert (Es : editor_step (goto e MLetter) ev3 = quiet (goto e (MTilde k))).
  { unfold editor_step. cbn [at_ goto]. rewrite E3. cbn in Hk. destruct Hk as [<-|[<-|[<-|[<-|[]]]]]; reflexivity. }
  rewrite Es. cbn [quiet obind fst snd]. rewrite (run_single _ _ _ eq_refl).
  destruct (editor_step (goto e (MTilde k)) ev4) as [[[?|] ?]| | | |]; reflexivity.
Qed.

Lemma previous_result d e m n w : rel d e -> size_ok (hist e) (S n) -> 0 < w ->
  key_result d KPrevious n
    (obind (key_previous (goto e m) w) (fun x => Ret (match fst x with Some l => [l] | None => [] end, snd x))).
Proof.
  intros (Ha & Hl & Hc & Hh) Hs Hw. unfold key_result. cbn [desk_step].
  destruct (hist_rel_prev d (hist e) n Hh Hs) as (h' & l & p & Eb & Eg & Hs' & Hh').
  rewrite Eb. unfold key_previous. cbn [hist goto]. rewrite Eg. cbn [obind fst snd].
  destruct l as [|c l].
  - eexists. split; [reflexivity|]. cbn [read_str cursor_index goto]. split; [|exact Hs'].
    split; [reflexivity|]. split; [exact Hl|]. split; [exact Hc|]. apply Hh'.
  - unfold compute_lines_needed. replace (w =? 0) with false by lia. cbn [obind].
    eexists. split; [reflexivity|]. split; [|exact Hs'].
    split; [reflexivity|]. split; [|split; [|apply Hh']].
    + unfold text. cbn [before after start_ read_str]. rewrite app_nil_r, rev_involutive. reflexivity.
    + cbn [before start_ cursor_index]. rewrite rev_length. reflexivity.
Qed.

Lemma next_result d e m n w : rel d e -> size_ok (hist e) (S n) -> 0 < w ->
  key_result d KNext n
    (obind (key_next (goto e m) w) (fun x => Ret (match fst x with Some l => [l] | None => [] end, snd x))).
Proof.
  intros (Ha & Hl & Hc & Hh) Hs Hw. unfold key_result. cbn [desk_step].
  destruct (no_past d) eqn:En.
  - destruct Hh as [(_ & Hp & [He Hi] & Hk)|(Hn & _)]; [|congruence].
    unfold key_next, get_next_command, hsize. cbn [hist goto]. rewrite He. cbn [length Z.of_nat].
    change (u64 (0 - 1)) with (2 ^ 64 - 1).
    destruct (nexts d =? 0)%nat eqn:E0; rewrite Hi.
    + change (2 ^ 64 - 1 <? 2 ^ 64 - 1) with false. change (2 ^ 64 - 1 =? 2 ^ 64 - 1) with true. cbv iota.
      cbn [obind fst snd]. unfold compute_lines_needed. replace (w =? 0) with false by lia. cbn [obind].
      eexists. split; [reflexivity|]. split; [|unfold size_ok in *; cbn [snd start_ hist with_index command_history_]; lia].
      split; [reflexivity|]. split; [reflexivity|]. split; [reflexivity|].
      left. cbn [past nexts no_past snd start_ hist]. rewrite Hp. split; [reflexivity|]. split; [reflexivity|].
      split; [split; [exact He|reflexivity]|lia].
    + change (0 <? 2 ^ 64 - 1) with true. cbv iota. change (u64 (0 + 1)) with 1.
      unfold hist_at, hsize, with_index. cbn [command_history_ current_index_]. rewrite He. reflexivity.
  - destruct (hist_rel_next d (hist e) n Hh En Hs) as (h' & l & p & Eb & Eg & Hs' & Hh').
    rewrite Eb. unfold key_next. cbn [hist goto]. rewrite Eg. cbn [obind fst snd].
    unfold compute_lines_needed. replace (w =? 0) with false by lia. cbn [obind].
    eexists. split; [reflexivity|]. split; [|exact Hs'].
    split; [reflexivity|]. split; [|split; [|apply Hh']].
    + unfold text. cbn [before after start_ read_str snd]. rewrite app_nil_r, rev_involutive. reflexivity.
    + cbn [before start_ cursor_index snd]. rewrite rev_length. reflexivity.
Qed.

Lemma quiet_result d k n d' e' : desk_step d k = Some (None, d') -> rel d' e' -> size_ok (hist e') n ->
  key_result d k n (obind (quiet e') (fun x => Ret (match fst x with Some l => [l] | None => [] end, snd x))).
Proof. intros E Hr Hs. unfold key_result. rewrite E. exists e'. split; [reflexivity|]. split; assumption. Qed.

Lemma key_ok d e k bytes evs n : rel d e -> size_ok (hist e) (S n) -> typed k bytes -> map ch evs = bytes ->
  Forall (fun ev => 0 < width ev) evs -> (forall ig, k = KEnter ig -> Forall (fun ev => ignoring ev = ig) evs) ->
  key_result d k n (editor_run e evs).
Proof.
  intros Hrel Hs Hty Hm Hw Hig. pose proof Hrel as (Ha & Hl & Hc & Hh). pose proof (size_weaken _ _ Hs) as Hs'.
  assert (Hmove : forall d', past d' = past d -> nexts d' = nexts d -> text d' = text d ->
            rel d' (start_ (read_str e) (length (before d')) (hist e))).
  { intros d' Hp Hn Ht. split; [reflexivity|]. split; [cbn; congruence|]. split; [reflexivity|].
    exact (hist_rel_same d d' _ Hp Hn Hh). }
  destruct Hty; unfold esc in Hm;
    repeat match goal with
      | H : map ch ?l = [] |- _ => destruct l; [clear H|discriminate H]
      | H : map ch ?l = _ :: _ |- _ => let x := fresh "ev" in destruct l as [|x l]; [discriminate H|]; cbn [map] in H;
            let Hx := fresh "Ex" in injection H as Hx H
      end.
  - (* char *)
    destruct ev as [c0 w ig]; cbn in Ex; subst c0. rewrite (run_single _ _ _ (typed_char c H e w ig Ha)).
    unfold key_char. rewrite Hl, Hc, text_length. replace (_ <? _)%nat with false by lia.
    apply quiet_result with (d' := put d (c :: before d) (after d)); [reflexivity| |exact Hs'].
    rewrite firstn_before, skipn_before.
    split; [reflexivity|]. split; [|split; [reflexivity|]].
    + rewrite text_put. cbn. rewrite <- app_assoc. reflexivity.
    + apply (hist_rel_same d); [reflexivity|reflexivity|exact Hh].
  - (* backspace *)
    assert (Es : editor_step e ev = key_backspace e).
    { unfold editor_step. rewrite Ha, Ex. cbn in H. destruct H as [<-|[<-|[]]]; reflexivity. }
    rewrite (run_single _ _ _ Es). unfold key_backspace. rewrite Hl, Hc.
    destruct (before d) as [|b bs] eqn:Eb.
    + cbn [length]. apply quiet_result with (d' := d); [cbn; rewrite Eb; reflexivity| |exact Hs'].
      split; [reflexivity|]. split; [exact Hl|]. split; [cbn; rewrite Eb; exact Hc|exact Hh].
    + cbn [length]. change (0 <? S (length bs))%nat with true. cbv iota. rewrite text_length, Eb. cbn [length].
      replace (_ <? _)%nat with false by lia.
      apply quiet_result with (d' := put d bs (after d)); [cbn; rewrite Eb; reflexivity| |exact Hs'].
      split; [reflexivity|]. split; [|split; [cbn; lia|apply (hist_rel_same d); [reflexivity|reflexivity|exact Hh]]].
      rewrite text_put. cbn [start_ read_str]. unfold text. rewrite Eb. cbn [rev]. rewrite <- app_assoc.
      replace (S (length bs) - 1)%nat with (length (rev bs)) by (rewrite rev_length; lia). apply erase_app.
  - (* delete *)
    rewrite (run_esc4 e _ _ _ _ "3"%char) by (assumption || (cbn; tauto)).
    unfold editor_step. cbn [at_ goto]. rewrite Ex2.
    change (("3" =? "2")%char) with false. change (("3" =? "3")%char) with true.
    change (negb ("~" =? "~")%char) with false. cbv iota.
    unfold key_delete. cbn [read_str cursor_index goto hist]. rewrite Hl, Hc, text_length.
    destruct (after d) as [|c a] eqn:Ea.
    + replace (_ <? _)%nat with false by (cbn [length]; lia).
      apply quiet_result with (d' := d); [cbn; rewrite Ea; reflexivity| |exact Hs'].
      split; [reflexivity|]. split; [exact Hl|]. split; [exact Hc|exact Hh].
    + replace (_ <? _)%nat with true by (cbn [length]; lia).
      apply quiet_result with (d' := put d (before d) a); [cbn; rewrite Ea; reflexivity| |exact Hs'].
      split; [reflexivity|]. split; [|split; [reflexivity|apply (hist_rel_same d); [reflexivity|reflexivity|exact Hh]]].
      rewrite text_put. cbn [start_ read_str]. unfold text. rewrite Ea, <- (rev_length (before d)). apply erase_app.
  - (* left *)
    rewrite run_esc3 by assumption. unfold editor_step. cbn [at_ goto]. rewrite Ex1. cbn [Ascii.eqb Bool.eqb].
    unfold key_left. cbn [read_str cursor_index goto hist]. rewrite Hc.
    destruct (before d) as [|c b] eqn:Eb.
    + apply quiet_result with (d' := d); [cbn; rewrite Eb; reflexivity| |exact Hs'].
      pose proof (Hmove d eq_refl eq_refl eq_refl) as Hm'. rewrite Eb in Hm'. exact Hm'.
    + cbn [length]. change (0 <? S (length b))%nat with true. cbv iota.
      apply quiet_result with (d' := put d b (c :: after d)); [cbn; rewrite Eb; reflexivity| |exact Hs'].
      replace (S (length b) - 1)%nat with (length b) by lia.
      apply (Hmove (put d b (c :: after d))); [reflexivity|reflexivity|].
      unfold text. cbn [put before after]. rewrite Eb. cbn. rewrite <- app_assoc. reflexivity.
  - (* right *)
    rewrite run_esc3 by assumption. unfold editor_step. cbn [at_ goto]. rewrite Ex1. cbn [Ascii.eqb Bool.eqb].
    unfold key_right. cbn [read_str cursor_index goto hist]. rewrite Hc, Hl, text_length.
    destruct (after d) as [|c a] eqn:Ea.
    + replace (_ <? _)%nat with false by (cbn [length]; lia). rewrite <- Hl.
      apply quiet_result with (d' := d); [cbn; rewrite Ea; reflexivity|apply Hmove; reflexivity|exact Hs'].
    + replace (_ <? _)%nat with true by (cbn [length]; lia). rewrite <- Hl.
      apply quiet_result with (d' := put d (c :: before d) a); [cbn; rewrite Ea; reflexivity| |exact Hs'].
      apply (Hmove (put d (c :: before d) a)); [reflexivity|reflexivity|].
      unfold text. cbn [put before after]. rewrite Ea. cbn. rewrite <- app_assoc. reflexivity.
  - (* home *)
    rewrite run_esc3 by assumption. unfold editor_step. cbn [at_ goto]. rewrite Ex1. cbn [Ascii.eqb Bool.eqb].
    unfold key_home. cbn [read_str cursor_index goto hist].
    apply quiet_result with (d' := put d [] (text d)); [reflexivity| |exact Hs'].
    apply (Hmove (put d [] (text d))); reflexivity.
  - (* end *)
    rewrite run_esc3 by assumption. unfold editor_step. cbn [at_ goto]. rewrite Ex1. cbn [Ascii.eqb Bool.eqb].
    unfold key_end. cbn [read_str cursor_index goto hist].
    apply quiet_result with (d' := put d (rev (text d)) []); [reflexivity| |exact Hs'].
    replace (length (read_str e)) with (length (before (put d (rev (text d)) [])))
      by (cbn; rewrite rev_length, Hl; reflexivity).
    apply (Hmove (put d (rev (text d)) [])); [reflexivity|reflexivity|].
    rewrite text_put, rev_involutive, app_nil_r. reflexivity.
  - (* up *)
    rewrite run_esc3 by assumption. unfold editor_step. cbn [at_ goto]. rewrite Ex1. cbn [Ascii.eqb Bool.eqb].
    apply previous_result; [exact Hrel|exact Hs|]. do 2 apply Forall_inv_tail in Hw. exact (Forall_inv Hw).
  - (* page up *)
    rewrite (run_esc4 e _ _ _ _ "5"%char) by (assumption || (cbn; tauto)).
    unfold editor_step. cbn [at_ goto]. rewrite Ex2. cbn [Ascii.eqb Bool.eqb negb].
    apply previous_result; [exact Hrel|exact Hs|]. do 3 apply Forall_inv_tail in Hw. exact (Forall_inv Hw).
  - (* down *)
    rewrite run_esc3 by assumption. unfold editor_step. cbn [at_ goto]. rewrite Ex1. cbn [Ascii.eqb Bool.eqb].
    apply next_result; [exact Hrel|exact Hs|]. do 2 apply Forall_inv_tail in Hw. exact (Forall_inv Hw).
  - (* page down *)
    rewrite (run_esc4 e _ _ _ _ "6"%char) by (assumption || (cbn; tauto)).
    unfold editor_step. cbn [at_ goto]. rewrite Ex2. cbn [Ascii.eqb Bool.eqb negb].
    apply next_result; [exact Hrel|exact Hs|]. do 3 apply Forall_inv_tail in Hw. exact (Forall_inv Hw).
  - (* insert *)
    rewrite (run_esc4 e _ _ _ _ "2"%char) by (assumption || (cbn; tauto)).
    unfold editor_step. cbn [at_ goto]. cbn [Ascii.eqb Bool.eqb].
    apply quiet_result with (d' := d); [reflexivity| |exact Hs'].
    split; [reflexivity|]. split; [exact Hl|]. split; [exact Hc|exact Hh].
  - (* enter *)
    assert (Es : editor_step e ev = key_enter e (ignoring ev)).
    { unfold editor_step. rewrite Ha, Ex. cbn in H. destruct H as [<-|[<-|[]]]; reflexivity. }
    rewrite (run_single _ _ _ Es). unfold key_enter, key_result. cbn [desk_step].
    rewrite (Forall_inv (Hig ig eq_refl)). rewrite Hl.
    destruct (hist_rel_add d (hist e) n (text d) Hh Hs) as [Hsa Hra].
    eexists. split; [cbn [obind fst snd]; reflexivity|].
    assert (Eh : (if negb ig && negb (length (text d) =? 0)%nat then add_command (hist e) (text d) else hist e) =
                 (if ig then hist e else add_command (hist e) (text d))).
    { destruct ig; cbn [negb andb]; [reflexivity|]. destruct (text d); reflexivity. }
    rewrite Eh. cbn [snd].
    split.
    + split; [reflexivity|]. split; [reflexivity|]. split; [reflexivity|]. cbn [start_ hist].
      destruct ig; [apply (hist_rel_same d); [reflexivity|reflexivity|exact Hh]|apply Hra].
    + cbn [start_ hist]. destruct ig; [exact Hs'|exact Hsa].
  - (* ctrl c *)
    assert (Es : editor_step e ev = key_ctrl_c e).
    { unfold editor_step. rewrite Ha, Ex. reflexivity. }
    rewrite (run_single _ _ _ Es). unfold key_ctrl_c, key_result. cbn [desk_step].
    eexists. split; [reflexivity|]. split; [|exact Hs'].
    split; [reflexivity|]. split; [reflexivity|]. split; [reflexivity|].
    apply (hist_rel_same d); [reflexivity|reflexivity|exact Hh].
Qed.

Lemma typing_ok : forall ks evs, typing ks evs -> forall d e, rel d e -> size_ok (hist e) (length ks) ->
  match desk_run d ks with
  | None => editor_run e evs = UB
  | Some (ls, d') => exists e', editor_run e evs = Ret (ls, e') /\ rel d' e'
  end.
Proof.
  intros ks evs H. induction H as [|k bytes ks evs0 evs Hty Hm Hw Hig Ht IH]; intros d e Hr Hs.
  - cbn. exists e. split; [reflexivity|exact Hr].
  - cbn [length] in Hs. pose proof (key_ok d e k bytes evs0 (length ks) Hr Hs Hty Hm Hw Hig) as Hk.
    unfold key_result in Hk. cbn [desk_run]. rewrite run_app.
    destruct (desk_step d k) as [[o d1]|]; [|rewrite Hk; reflexivity].
    destruct Hk as (e1 & E1 & Hr1 & Hs1). rewrite E1. cbn [obind fst snd].
    specialize (IH d1 e1 Hr1 Hs1). destruct (desk_run d1 ks) as [[ls d2]|].
    + destruct IH as (e2 & E2 & Hr2). rewrite E2. cbn [obind fst snd]. exists e2. split; [destruct o; reflexivity|exact Hr2].
    + rewrite IH. reflexivity.
Qed.

Lemma init_rel : rel desk_init editor_init.
Proof.
  split; [reflexivity|]. split; [reflexivity|]. split; [reflexivity|]. left.
  split; [reflexivity|]. split; [reflexivity|]. split; [split; reflexivity|cbn; lia].
Qed.

Lemma editor_lemma : forall ks evs, typing ks evs -> Z.of_nat (length ks) < 2 ^ 63 ->
  match desk_run desk_init ks with
  | None => editor_run editor_init evs = UB
  | Some (ls, d) => exists e, editor_run editor_init evs = Ret (ls, e) /\
                              read_str e = text d /\ cursor_index e = length (before d)
  end.
Proof.
  intros ks evs Ht Hlen. pose proof (typing_ok ks evs Ht desk_init editor_init init_rel) as H.
  specialize (H ltac:(unfold size_ok; cbn [editor_init hist history_init command_history_ length]; lia)).
  destruct (desk_run desk_init ks) as [[ls d]|]; [|exact H].
  destruct H as (e & E & (_ & Hl & Hc & _)). exists e. repeat split; assumption.
Qed.

(** ** Failures *)

Definition press (bytes : str) (w : Z) : list event :=
  map (fun c => {| ch := c; width := w; ignoring := false |}) bytes.

Lemma two_downs_lemma : exists evs, map ch evs = esc "[B" ++ esc "[B" /\
  Forall (fun ev => 0 < width ev) evs /\ editor_run editor_init evs = UB.
Proof.
  exists (press (esc "[B" ++ esc "[B") 80). split; [reflexivity|]. split; [|reflexivity].
  cbn. repeat (constructor; [reflexivity|]). constructor.
Qed.

Lemma zero_width_lemma : exists evs, map ch evs = s "a" ++ [LF] ++ esc "[A" /\
  Forall (fun ev => width ev = 0) evs /\ editor_run editor_init evs = UB.
Proof.
  exists (press (s "a" ++ [LF] ++ esc "[A") 0). split; [reflexivity|]. split; [|reflexivity].
  cbn. repeat (constructor; [reflexivity|]). constructor.
Qed.

Lemma eof_lemma : forall n e w ig, at_ e = MStart -> cursor_index e = length (read_str e) ->
  editor_run e (repeat {| ch := EOF_char; width := w; ignoring := ig |} n) =
  Ret ([], start_ (read_str e ++ repeat EOF_char n) (length (read_str e) + n) (hist e)).
Proof.
  induction n as [|n IH]; intros e w ig Ha Hc.
  - cbn. rewrite app_nil_r, Nat.add_0_r. destruct e as [m l i h]; cbn in *; subst. reflexivity.
  - cbn [repeat editor_run]. rewrite typed_char by (try exact Ha; cbn; intuition discriminate).
    unfold key_char. rewrite Hc, Nat.ltb_irrefl. rewrite firstn_all, skipn_all. cbn [quiet obind fst snd].
    rewrite IH by (try reflexivity; cbn; rewrite app_length; cbn; lia).
    cbn [start_ read_str hist obind fst snd]. rewrite <- app_assoc, app_length. cbn [length app].
    do 2 f_equal. f_equal. lia.
Qed.
