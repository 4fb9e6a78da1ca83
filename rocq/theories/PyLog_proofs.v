From Coq Require Import Lia ZifyBool.
From Verif Require Export PyLog_spec.

Section P.
Variable valid : str -> bool.
Notation after := (after valid).
Lemma after_snoc k ops o : after k (ops ++ [o]) = fst (exec valid (after k ops) o).
Proof. unfold PyLog_model.after. rewrite fold_left_app. reflexivity. Qed.
Lemma threshold_after k ops : threshold (after k ops) = last_level k ops /\ disable (after k ops) = last_disable ops /\ handlers (after k ops) = formats valid ops.
Proof.
  induction ops as [|o ops IH] using rev_ind; [easy|].
  rewrite after_snoc. unfold last_level, last_disable, formats in *. rewrite !fold_left_app, flat_map_app. cbn [fold_left flat_map].
  destruct IH as (A & B & C). rewrite app_comm_cons, <- C, <- A, <- B.
  destruct o; cbn; unfold set_format, is_enabled_for; try destruct (valid f); try destruct (lookup _ _); cbn; rewrite ?app_nil_r; easy.
Qed.
Lemma uses_dec j o : {uses j o} + {~ uses j o}.
Proof.
  destruct o; try (right; intros [[m H]|H]; discriminate).
  - destruct (Z.eq_dec j k) as [<-|N]; [left; left; eauto | right; intros [[m' H]|H]; congruence].
  - destruct (Z.eq_dec j k) as [<-|N]; [left; right; eauto | right; intros [[m' H]|H]; congruence].
Qed.
Definition allowed (k : level) (ops : list op) (j : level) : bool := (last_level k ops <=? j)%Z && (last_disable ops <? j)%Z.
Lemma lookup_other j k b l : j <> k -> lookup k ((j, b) :: l) = lookup k l.
Proof. intros N. unfold lookup. cbn. destruct (Z.eqb_spec j k); [congruence | reflexivity]. Qed.
Lemma lookup_same k b l : lookup k ((k, b) :: l) = Some b.
Proof. unfold lookup. cbn. now rewrite Z.eqb_refl. Qed.
Lemma exec_other g o j : ~ uses j o -> lookup j (cache (fst (exec valid g o))) = lookup j (cache g).
Proof.
  intros N. destruct o; cbn; unfold set_format, is_enabled_for; try destruct (valid f); try reflexivity.
  - destruct (lookup k (cache g)); cbn; [easy|]. rewrite lookup_other; [easy|]. intros ->. apply N. left. eauto.
  - destruct (lookup k (cache g)); cbn; [easy|]. rewrite lookup_other; [easy|]. intros ->. apply N. now right.
Qed.
Lemma unused k ops j : Forall (fun o => ~ uses j o) ops -> lookup j (cache (after k ops)) = None.
Proof.
  induction ops as [|o ops IH] using rev_ind; intros F; [easy|].
  apply Forall_app in F as [F1 F2]. inversion F2; subst. rewrite after_snoc, exec_other; auto.
Qed.
Lemma kept g o j b : lookup j (cache g) = Some b -> lookup j (cache (fst (exec valid g o))) = Some b.
Proof.
  intros H. destruct (uses_dec j o) as [U|N]; [|now rewrite exec_other].
  destruct U as [U|U]; [destruct U as [m U]|]; subst o.
  - cbn. unfold is_enabled_for. rewrite H. easy.
  - cbn. unfold is_enabled_for. rewrite H. easy.
Qed.
Lemma used k first o rest j : Forall (fun o => ~ uses j o) first -> uses j o ->
  lookup j (cache (after k (first ++ o :: rest))) = Some (allowed k first j).
Proof.
  intros F U. induction rest as [|x rest IH] using rev_ind.
  - rewrite after_snoc. pose proof (unused k first j F) as N. destruct (threshold_after k first) as (A & B & _).
    assert (E : fst (exec valid (after k first) o) = fst (is_enabled_for (after k first) j)).
    { destruct U as [[m ->]| ->]; cbn; destruct (is_enabled_for _ _); easy. }
    rewrite E. unfold is_enabled_for. rewrite N. cbn [fst cache]. rewrite lookup_same, A, B. unfold allowed. f_equal.
    destruct (j <=? _)%Z eqn:D; lia.
  - replace (first ++ o :: rest ++ [x]) with ((first ++ o :: rest) ++ [x]) by now rewrite <- app_assoc.
    rewrite after_snoc. now apply kept.
Qed.
Lemma enabled_first k ops first j : before_first_use j ops first -> snd (is_enabled_for (after k ops) j) = allowed k first j.
Proof.
  intros [F [->|(o & rest & -> & U)]].
  - unfold is_enabled_for. rewrite (unused k first j F). cbn. destruct (threshold_after k first) as (-> & -> & _). unfold allowed.
    destruct (j <=? _)%Z eqn:D; lia.
  - unfold is_enabled_for. now rewrite (used k first o rest j F U).
Qed.
Lemma exists_first j ops : exists first, before_first_use j ops first.
Proof.
  induction ops as [|o ops (first & F & H)]; [exists []; split; auto|].
  destruct (uses_dec j o) as [U|U].
  - exists []. split; [constructor|]. right. exists o, ops. auto.
  - exists (o :: first). split; [now constructor|]. destruct H as [->|(x & rest & -> & V)]; [now left|]. right. exists x, rest. auto.
Qed.
Lemma effect_log k ops j m : effect_after valid k ops (Log j m) =
  Printed (if snd (is_enabled_for (after k ops) j) then if (0 <=? j)%Z then map (fun f => {| format := f; severity := j; message := m |}) (formats valid ops) else [] else []).
Proof.
  unfold effect_after. cbn. destruct (threshold_after k ops) as (_ & _ & C).
  assert (H : handlers (fst (is_enabled_for (after k ops) j)) = formats valid ops) by (unfold is_enabled_for; destruct (lookup _ _); easy).
  destruct (is_enabled_for (after k ops) j) as [g b]. cbn in *. unfold call_handlers. now rewrite H.
Qed.
Lemma allows_iff k ops j : allows k ops j <-> allowed k ops j = true.
Proof. unfold allows, allowed. lia. Qed.

Lemma lines k ops j m ls : prints valid k ops j m ls -> ls <> [] -> ls = map (fun f => {| format := f; severity := j; message := m |}) (formats valid ops).
Proof. unfold prints. rewrite effect_log. intros [= <-]. destruct (snd _), (0 <=? j)%Z; easy. Qed.
Lemma formats_one ops : (forall f, ~ In (SetFormat f) ops) -> formats valid ops = [default_format].
Proof.
  intros N. unfold formats. f_equal. induction ops as [|o ops IH]; [easy|]. cbn.
  rewrite IH by (intros f H; apply (N f); now right). destruct o; try reflexivity. destruct (N f). now left.
Qed.
Lemma once k ops j m ls : (forall f, ~ In (SetFormat f) ops) -> prints valid k ops j m ls -> ls = [] \/ ls = [{| format := default_format; severity := j; message := m |}].
Proof.
  intros N P. destruct ls as [|x l]; [now left|right]. rewrite (lines _ _ _ _ _ P) by easy. rewrite formats_one by easy. reflexivity.
Qed.
Lemma printed_first k ops first j m ls : (0 <= j)%Z -> before_first_use j ops first -> prints valid k ops j m ls -> (ls <> [] <-> allows k first j).
Proof.
  intros P B. unfold prints. rewrite effect_log, (enabled_first k ops first j B), allows_iff. intros [= <-].
  destruct (allowed k first j); [|split; easy]. replace (0 <=? j)%Z with true by lia. split; easy.
Qed.
Lemma printed_fresh k ops j m ls : (0 <= j)%Z -> Forall (fun o => ~ uses j o) ops -> prints valid k ops j m ls -> (ls <> [] <-> allows k ops j).
Proof. intros P F. apply printed_first; [easy|]. split; auto. Qed.
Lemma printed_total k ops j m : exists ls, prints valid k ops j m ls.
Proof. unfold prints. rewrite effect_log. eauto. Qed.
Lemma answered k ops first j : before_first_use j ops first -> exists b, effect_after valid k ops (IsEnabledFor j) = Answer b /\ (b = true <-> allows k first j).
Proof.
  intros B. pose proof (enabled_first k ops first j B) as E. unfold effect_after. cbn. destruct (is_enabled_for (after k ops) j) as [g b].
  cbn in *. exists b. rewrite allows_iff. now subst.
Qed.
End P.
