From Coq Require Import List Bool Arith NArith Lia.
From Verif Require Import Str Str_proofs Outcome StrUtils_model StrUtils_proofs Printing_model Printing_spec.
Import ListNotations.

(** ** Formatter *)
Lemma c_str_nonul : forall t, ~ In zero t -> c_str t = t.
Proof.
  induction t as [|x t IH]; intros H; [reflexivity|]. cbn [c_str]. destruct (Ascii.eqb x zero) eqn:E.
  - apply Ascii.eqb_eq in E. exfalso. apply H. left. exact E.
  - rewrite IH; [reflexivity|]. intros Hi. apply H. right. exact Hi.
Qed.

Lemma c_str_cut : forall a b, ~ In zero a -> c_str (a ++ zero :: b) = a.
Proof.
  induction a as [|x a IH]; intros b H; cbn [app c_str].
  - reflexivity.
  - destruct (Ascii.eqb x zero) eqn:E.
    + apply Ascii.eqb_eq in E. exfalso. apply H. left. exact E.
    + rewrite IH; [reflexivity|]. intros Hi. apply H. right. exact Hi.
Qed.

Lemma fmt_concat vals : forall ss, fold_left fmt_stream vals ss = ss ++ concat vals.
Proof.
  induction vals as [|v vals IH]; intros ss; cbn [fold_left concat]; [rewrite app_nil_r; reflexivity|].
  rewrite IH. unfold fmt_stream. rewrite app_assoc. reflexivity.
Qed.

Lemma formatter_lemma : forall vals, Forall (fun v => ~ In zero v) vals ->
  fmt_to_string (fold_left fmt_stream vals []) = concat vals.
Proof.
  intros vals H. rewrite fmt_concat. cbn [app]. apply c_str_nonul. intros Hi. apply in_concat in Hi as (v & Hv & Hz).
  rewrite Forall_forall in H. exact (H v Hv Hz).
Qed.

Lemma formatter_cut_lemma : forall vals a b, concat vals = a ++ zero :: b -> ~ In zero a ->
  fmt_to_string (fold_left fmt_stream vals []) = a.
Proof. intros vals a b E H. rewrite fmt_concat. cbn [app]. rewrite E. apply c_str_cut. exact H. Qed.

Lemma formatter_refute : exists vals, fmt_to_string (fold_left fmt_stream vals []) <> concat vals.
Proof. exists [s "a"; [zero]; s "b"]. vm_compute. discriminate. Qed.

(** ** Containers *)
Lemma nth_app_mid {A} (a : list A) x b d : nth (length a) (a ++ x :: b) d = x.
Proof. rewrite app_nth2 by lia. rewrite Nat.sub_diag. reflexivity. Qed.

Lemma print_loop_lemma sep : forall rest done os last,
  print_loop os (done ++ rest ++ [last]) sep (length done) (length rest) =
  os ++ concat (map (fun x => x ++ sep) rest).
Proof.
  induction rest as [|x rest IH]; intros done os last; cbn [length print_loop map concat]; [rewrite app_nil_r; reflexivity|].
  cbn [app]. unfold str in *. rewrite nth_app_mid. specialize (IH (done ++ [x]) (os ++ x ++ sep) last).
  rewrite app_length in IH. cbn [length] in IH. rewrite Nat.add_1_r in IH. rewrite <- !app_assoc in IH. cbn [app] in IH.
  rewrite IH, <- !app_assoc. reflexivity.
Qed.

Lemma join_snoc sep : forall l (x : str), join sep (l ++ [x]) = concat (map (fun y => y ++ sep) l) ++ x.
Proof.
  induction l as [|y l IH]; intros x; [reflexivity|]. cbn [app map concat].
  assert (E : join sep (y :: l ++ [x]) = y ++ sep ++ join sep (l ++ [x])) by (destruct l; reflexivity).
  rewrite E, IH, <- !app_assoc. reflexivity.
Qed.

Lemma container_lemma : forall os l sep, container_to_stream os l sep = os ++ s "{" ++ join sep l ++ s "}".
Proof.
  intros os l sep. unfold container_to_stream. destruct l as [|x l _] using rev_ind.
  - cbn [length print_loop Nat.sub Nat.ltb Nat.leb join]. rewrite <- app_assoc. reflexivity.
  - rewrite app_length. cbn [length]. rewrite Nat.add_1_r. cbn [Nat.sub]. rewrite Nat.sub_0_r.
    change (0 <? S (length l)) with true. cbn [Nat.ltb Nat.leb].
    pose proof (print_loop_lemma sep l [] (os ++ s "{") x) as H. cbn [app length] in H. unfold str in *. rewrite H.
    rewrite nth_app_mid. pose proof (join_snoc sep l x) as J. unfold str in J. rewrite J. rewrite <- !app_assoc. reflexivity.
Qed.

(** ** Masks *)
Lemma join_cons2 sep (x y : str) l : join sep (x :: y :: l) = x ++ sep ++ join sep (y :: l).
Proof. reflexivity. Qed.

Lemma join_snoc2 sep : forall l (x : str), l <> [] -> join sep (l ++ [x]) = join sep l ++ sep ++ x.
Proof.
  induction l as [|y l IH]; intros x H; [congruence|]. destruct l as [|z l]; [reflexivity|].
  change ((y :: z :: l) ++ [x]) with (y :: z :: (l ++ [x])). rewrite !join_cons2.
  change (z :: l ++ [x]) with ((z :: l) ++ [x]). rewrite IH by discriminate. rewrite <- !app_assoc. reflexivity.
Qed.

Lemma chosen_app {A} (m1 m2 : list bool) (n1 n2 : list A) : length m1 = length n1 ->
  chosen (m1 ++ m2) (n1 ++ n2) = chosen m1 n1 ++ chosen m2 n2.
Proof.
  revert n1. induction m1 as [|b m1 IH]; intros [|n n1] H; try discriminate; [reflexivity|].
  cbn [app chosen]. rewrite IH by (cbn in H; lia). rewrite <- app_assoc. reflexivity.
Qed.

Lemma mask_loop_lemma mask : forall n2 n1 m1 m2, mask = m1 ++ m2 -> qos_names = n1 ++ n2 -> length m1 = length n1 -> length m2 = length n2 ->
  mask_loop mask (join (s ", ") (chosen m1 n1)) (match chosen m1 n1 with [] => true | _ => false end) (length n1) (length n2) =
  join (s ", ") (chosen mask qos_names).
Proof.
  induction n2 as [|x n2 IH]; intros n1 m1 m2 Em En L1 L2; cbn [length mask_loop].
  - destruct m2; [|discriminate]. rewrite app_nil_r in Em, En. subst m1. rewrite <- En. reflexivity.
  - destruct m2 as [|b m2]; [discriminate|].
    assert (Eb : nth (length n1) mask false = b) by (rewrite Em, <- L1; apply nth_app_mid).
    assert (Ex : qos_policy_id_to_string (length n1) = x) by (unfold qos_policy_id_to_string; unfold str in *; rewrite En; apply nth_app_mid).
    rewrite Eb, Ex. specialize (IH (n1 ++ [x]) (m1 ++ [b]) m2).
    rewrite <- !app_assoc in IH. cbn [app] in IH. specialize (IH Em En). rewrite !app_length in IH. cbn [length] in IH.
    specialize (IH ltac:(lia) ltac:(cbn in L2; lia)). rewrite Nat.add_1_r in IH. rewrite chosen_app in IH by exact L1.
    cbn [chosen] in IH. destruct b; cbn [app] in IH.
    + rewrite <- IH. destruct (chosen m1 n1) as [|c cs] eqn:E; [cbn [app join]; rewrite ?app_nil_l; reflexivity|].
      rewrite join_snoc2 by discriminate. rewrite <- app_assoc. reflexivity.
    + rewrite app_nil_r in IH. exact IH.
Qed.

Lemma chosen_none {A} (mask : list bool) (names : list A) : length mask = length names ->
  (existsb (fun b => b) mask = false <-> chosen mask names = []).
Proof.
  revert names. induction mask as [|b mask IH]; intros [|n names] H; try discriminate; [cbn; tauto|].
  cbn [existsb chosen]. destruct b; cbn [orb app]; [split; discriminate|]. apply IH. cbn in H. lia.
Qed.

Lemma mask_lemma : forall mask, length mask = length qos_names -> existsb (fun b => b) mask = true ->
  mask_to_string mask = join (s ", ") (chosen mask qos_names).
Proof.
  intros mask L H. unfold mask_to_string. rewrite H. cbn [negb].
  exact (mask_loop_lemma mask qos_names [] [] mask eq_refl eq_refl eq_refl L).
Qed.

Lemma mask_none_lemma : forall mask, existsb (fun b => b) mask = false -> mask_to_string mask = s "Invalid".
Proof. intros mask H. unfold mask_to_string. rewrite H. reflexivity. Qed.

Lemma cut_char (c : ascii) : forall a b a' b', ~ In c a -> ~ In c a' -> a ++ c :: b = a' ++ c :: b' -> a = a' /\ b = b'.
Proof.
  induction a as [|x a IH]; intros b [|x' a'] b' H H' E; cbn [app] in E.
  - injection E as ->. split; reflexivity.
  - injection E as <- _. exfalso. apply H'. left. reflexivity.
  - injection E as -> _. exfalso. apply H. left. reflexivity.
  - injection E as -> E. destruct (IH b a' b') as [-> ->]; [intros Hi; apply H; right; exact Hi|intros Hi; apply H'; right; exact Hi|exact E|].
    split; reflexivity.
Qed.

Lemma join_inj c sep : forall l l', Forall (fun p : str => ~ In c p) l -> Forall (fun p : str => ~ In c p) l' -> l <> [] -> l' <> [] ->
  join (c :: sep) l = join (c :: sep) l' -> l = l'.
Proof.
  induction l as [|x l IH]; intros [|x' l'] H H' N N' E; try congruence.
  apply Forall_cons_iff in H as [Hx H]. apply Forall_cons_iff in H' as [Hx' H'].
  assert (A : forall (x y : str) l t, ~ In c t -> join (c :: sep) (x :: y :: l) = t -> False).
  { intros u v w t Ht Et. apply Ht. rewrite <- Et, join_cons2. apply in_or_app. right. left. reflexivity. }
  destruct l as [|y l], l' as [|y' l'].
  - cbn in E. congruence.
  - exfalso. apply (A x' y' l' x Hx). symmetry. exact E.
  - exfalso. exact (A x y l x' Hx' E).
  - rewrite !join_cons2 in E. cbn [app] in E. apply cut_char in E as [-> E]; [|assumption|assumption]. f_equal.
    apply IH; [exact H|exact H'|discriminate|discriminate|]. apply app_inv_head in E. exact E.
Qed.

Lemma chosen_incl {A} (mask : list bool) (names : list A) : incl (chosen mask names) names.
Proof.
  revert names. induction mask as [|b mask IH]; intros [|n names] x H; cbn [chosen] in H; try contradiction.
  apply in_app_iff in H as [H|H]; [left; destruct b; [destruct H as [H|[]]; exact H|contradiction]|right; exact (IH names x H)].
Qed.

Lemma chosen_inj {A} : forall (names : list A), NoDup names -> forall m m', length m = length names -> length m' = length names ->
  chosen m names = chosen m' names -> m = m'.
Proof.
  induction names as [|n names IH]; intros Hnd [|b m] [|b' m'] L L' E; try discriminate; [reflexivity|].
  apply NoDup_cons_iff in Hnd as [Hn Hnd]. cbn [chosen] in E. cbn [length] in L, L'.
  assert (X : forall m, ~ In n (chosen m names)) by (intros k Hi; apply Hn; exact (chosen_incl k names n Hi)).
  destruct b, b'; cbn [app] in E.
  - injection E as E. f_equal. apply IH; (assumption || lia).
  - exfalso. apply (X m'). rewrite <- E. left. reflexivity.
  - exfalso. apply (X m). rewrite E. left. reflexivity.
  - f_equal. apply IH; (assumption || lia).
Qed.

Fixpoint nodupb (l : list str) : bool :=
  match l with [] => true | x :: l' => negb (existsb (str_eqb x) l') && nodupb l' end.

Lemma nodupb_ok : forall l, nodupb l = true -> NoDup l.
Proof.
  induction l as [|x l IH]; intros H; constructor; cbn [nodupb] in H; apply andb_prop in H as [H1 H2].
  - intros Hi. assert (X : existsb (str_eqb x) l = true) by (apply existsb_exists; exists x; split; [exact Hi|apply str_eqb_refl]).
    rewrite X in H1. discriminate.
  - exact (IH H2).
Qed.

Lemma qos_names_nodup : NoDup qos_names.
Proof. apply nodupb_ok. vm_compute. reflexivity. Qed.

Lemma qos_names_commaless : Forall (fun p => ~ In (ascii_of_nat 44) p) qos_names.
Proof.
  apply Forall_forall. intros p Hp Hc.
  assert (X : forallb (fun p => negb (existsb (Ascii.eqb (ascii_of_nat 44)) p)) qos_names = true) by (vm_compute; reflexivity).
  rewrite forallb_forall in X. specialize (X p Hp).
  assert (Y : existsb (Ascii.eqb (ascii_of_nat 44)) p = true) by (apply existsb_exists; eexists; split; [exact Hc|apply Ascii.eqb_refl]).
  rewrite Y in X. discriminate.
Qed.

Lemma mask_inj_lemma : forall m m', length m = length qos_names -> length m' = length qos_names ->
  existsb (fun b => b) m = true -> existsb (fun b => b) m' = true -> mask_to_string m = mask_to_string m' -> m = m'.
Proof.
  intros m m' L L' H H' E. rewrite !mask_lemma in E by assumption. apply (chosen_inj qos_names qos_names_nodup); [exact L|exact L'|].
  assert (C : forall k, Forall (fun p => ~ In (ascii_of_nat 44) p) (chosen k qos_names)).
  { intros k. eapply incl_Forall; [apply chosen_incl|exact qos_names_commaless]. }
  assert (N : forall k, length k = length qos_names -> existsb (fun b => b) k = true -> chosen k qos_names <> []).
  { intros k Lk Hk Ek. apply chosen_none in Ek; [congruence|exact Lk]. }
  change (s ", ") with (ascii_of_nat 44 :: s " ") in E.
  apply join_inj in E; [exact E|apply C|apply C|apply N; assumption|apply N; assumption].
Qed.

Lemma mask_ambiguous_refute : exists m m', length m = length qos_names /\ length m' = length qos_names /\
  m <> m' /\ mask_to_string m = mask_to_string m'.
Proof.
  exists (repeat false 37), (true :: repeat false 36). split; [reflexivity|]. split; [reflexivity|]. split; [discriminate|vm_compute; reflexivity].
Qed.

(** ** Files *)
Lemma line_end_char : forall l rest, ~ In newline l -> line_end (l ++ newline :: rest) = (l, rest).
Proof.
  induction l as [|x l IH]; intros rest H; cbn [app line_end].
  - reflexivity.
  - destruct (Ascii.eqb x newline) eqn:E; [apply Ascii.eqb_eq in E; exfalso; apply H; left; exact E|].
    rewrite IH; [reflexivity|]. intros Hi. apply H. right. exact Hi.
Qed.

Lemma line_end_last : forall l, ~ In newline l -> line_end l = (l, []).
Proof.
  induction l as [|x l IH]; intros H; cbn [line_end]; [reflexivity|].
  destruct (Ascii.eqb x newline) eqn:E; [apply Ascii.eqb_eq in E; exfalso; apply H; left; exact E|].
  rewrite IH; [reflexivity|]. intros Hi. apply H. right. exact Hi.
Qed.

Definition treat (strip_chars : bool) (l : str) : str := if strip_chars then without_carriage_returns l else l.
Definition keep (strip_empty : bool) (l : str) : bool := negb (strip_empty && match l with [] => true | _ => false end).

Lemma strip_line l : ~ In newline l ->
  option_map fst (strip_str_default (S (length l)) l) = Some (without_carriage_returns l).
Proof.
  intros H. rewrite strip_default_lemma by lia. cbn [option_map fst]. f_equal. unfold without_carriage_returns.
  apply filter_ext_in. intros x Hx. destruct (Ascii.eqb x newline) eqn:E; [|reflexivity].
  apply Ascii.eqb_eq in E. subst. contradiction.
Qed.

Lemma getline_line l rest : ~ In newline l -> getline (l ++ newline :: rest) = Some (l, rest).
Proof. intros H. unfold getline. rewrite line_end_char by exact H. destruct l; reflexivity. Qed.

Lemma getline_last x l : ~ In newline (x :: l) -> getline (x :: l) = Some (x :: l, []).
Proof. intros H. unfold getline. rewrite line_end_last by exact H. reflexivity. Qed.

Lemma step_line (sc se : bool) (l : str) (result : list str) :
  (if se && match treat sc l with [] => true | _ => false end then result else result ++ [treat sc l]) =
  result ++ filter (keep se) [treat sc l].
Proof.
  cbn [filter]. unfold keep. destruct (se && _); cbn [negb]; [rewrite app_nil_r|]; reflexivity.
Qed.

Lemma loop_step fuel sc se rest result l rest' : getline rest = Some (l, rest') -> ~ In newline l ->
  lines_loop (S fuel) sc se rest result = lines_loop fuel sc se rest' (result ++ filter (keep se) [treat sc l]).
Proof.
  intros G H. cbn [lines_loop]. rewrite G, <- step_line. unfold treat. destruct sc; [|reflexivity].
  pose proof (strip_line l H) as E. unfold str in *. rewrite E. reflexivity.
Qed.

Lemma lines_loop_lemma sc se : forall lines unfinished result fuel,
  Forall (fun l => ~ In newline l) lines -> ~ In newline unfinished ->
  length (file_of_lines lines unfinished) < fuel ->
  lines_loop fuel sc se (file_of_lines lines unfinished) result =
  Ret (result ++ filter (keep se) (map (treat sc) (lines_of lines unfinished))).
Proof.
  induction lines as [|l lines IH]; intros u result fuel Hl Hu Hf; (destruct fuel as [|fuel]; [lia|]).
  - unfold file_of_lines, lines_of in *. cbn [map concat app] in *. destruct u as [|x u].
    + cbn [getline map filter]. rewrite app_nil_r. reflexivity.
    + rewrite (loop_step fuel sc se (x :: u) result (x :: u) [] (getline_last x u Hu) Hu).
      destruct fuel as [|fuel]; [cbn in Hf; lia|]. reflexivity.
  - apply Forall_cons_iff in Hl as [Hl0 Hl].
    assert (Ef : file_of_lines (l :: lines) u = l ++ newline :: file_of_lines lines u)
      by (unfold file_of_lines; cbn [map concat]; rewrite <- !app_assoc; reflexivity).
    rewrite Ef in *. rewrite (loop_step fuel sc se _ result l _ (getline_line l _ Hl0) Hl0).
    rewrite IH; [|exact Hl|exact Hu|rewrite app_length in Hf; cbn [length] in Hf; lia].
    unfold lines_of. change ((l :: lines) ++ ?x) with (l :: (lines ++ x)). cbn [app map]. 
    rewrite <- app_assoc. f_equal. f_equal. rewrite <- filter_app. reflexivity.
Qed.

Lemma file_lines_lemma : forall lines unfinished sc se,
  Forall (fun l => ~ In newline l) lines -> ~ In newline unfinished ->
  file_to_strings (Some (file_of_lines lines unfinished)) sc se =
  Ret (filter (fun l => negb (se && match l with [] => true | _ => false end))
        (map (fun l => if sc then without_carriage_returns l else l) (lines_of lines unfinished))).
Proof.
  intros lines u sc se Hl Hu. unfold file_to_strings. rewrite lines_loop_lemma; [reflexivity|exact Hl|exact Hu|apply Nat.lt_succ_diag_r].
Qed.

Lemma file_form_lemma : forall content, exists lines unfinished,
  content = file_of_lines lines unfinished /\ Forall (fun l => ~ In newline l) lines /\ ~ In newline unfinished.
Proof.
  induction content as [|x t (lines & u & -> & Hl & Hu)]; [exists [], []; split; [reflexivity|]; split; [constructor|intros []]|].
  destruct (Ascii.eqb x newline) eqn:E.
  - apply Ascii.eqb_eq in E as ->. exists ([] :: lines), u. split; [reflexivity|]. split; [constructor; [intros []|exact Hl]|exact Hu].
  - apply Ascii.eqb_neq in E. destruct lines as [|l lines].
    + exists [], (x :: u). split; [reflexivity|]. split; [constructor|]. intros [H|H]; [congruence|contradiction].
    + apply Forall_cons_iff in Hl as [H0 Hl]. exists ((x :: l) :: lines), u. split; [reflexivity|]. split; [|exact Hu].
      constructor; [|exact Hl]. intros [H|H]; [congruence|contradiction].
Qed.

Lemma fold_lines : forall l acc, fold_left (fun (r st : str) => r ++ (st ++ [newline])) l acc = acc ++ concat (map (fun st => st ++ [newline]) l).
Proof.
  induction l as [|x l IH]; intros acc; cbn [fold_left map concat]; [rewrite app_nil_r; reflexivity|]. rewrite IH, <- !app_assoc. reflexivity.
Qed.

Lemma filter_all {A} (f : A -> bool) l : (forall x, f x = true) -> filter f l = l.
Proof. intros H. induction l as [|x l IH]; cbn [filter]; [reflexivity|]. rewrite H, IH. reflexivity. Qed.

Lemma file_string_lemma : forall content,
  (complete_lines content -> file_to_string (Some content) false = Ret content) /\
  (~ complete_lines content -> file_to_string (Some content) false = Ret (content ++ [newline])).
Proof.
  intros content. destruct (file_form_lemma content) as (lines & u & -> & Hl & Hu). unfold file_to_string.
  rewrite file_lines_lemma by assumption. cbn [obind andb negb]. rewrite filter_all by reflexivity. rewrite fold_lines. cbn [app].
  rewrite map_id. unfold lines_of, file_of_lines. rewrite map_app, concat_app. destruct u as [|x u].
  - cbn [map concat]. split; [reflexivity|]. intros H. exfalso. apply H. destruct lines as [|l lines _] using rev_ind; [left; reflexivity|].
    right. exists (concat (map (fun l => l ++ [newline]) lines) ++ l). rewrite map_app, concat_app. cbn [map concat]. rewrite !app_nil_r, <- app_assoc. reflexivity.
  - cbn [map concat]. rewrite app_nil_r. split.
    + intros [H|(v & H)]; exfalso.
      * apply app_eq_nil in H as [_ H]. discriminate.
      * destruct (exists_last (l := x :: u)) as (t & y & E); [discriminate|]. rewrite E in H, Hu. rewrite app_assoc in H.
        apply app_inj_tail in H as [_ ->]. apply Hu. apply in_or_app. right. left. reflexivity.
    + intros _. rewrite <- app_assoc. reflexivity.
Qed.

Lemma stripped_lines : forall ls : list str, concat (map (fun l => l ++ [newline]) (map without_carriage_returns ls)) =
  without_carriage_returns (concat (map (fun l => l ++ [newline]) ls)).
Proof.
  induction ls as [|l ls IH]; [reflexivity|]. cbn [map concat]. rewrite IH. unfold without_carriage_returns. rewrite !filter_app. reflexivity.
Qed.

Lemma file_stripped_lemma : forall content,
  (complete_lines content -> file_to_string (Some content) true = Ret (without_carriage_returns content)) /\
  (~ complete_lines content -> file_to_string (Some content) true = Ret (without_carriage_returns content ++ [newline])).
Proof.
  intros content.
  assert (X : forall t, file_to_string (Some content) false = Ret t -> file_to_string (Some content) true = Ret (without_carriage_returns t)).
  { intros t. destruct (file_form_lemma content) as (lines & u & -> & Hl & Hu). unfold file_to_string.
    rewrite !file_lines_lemma by assumption. cbn [obind andb negb]. rewrite !filter_all by reflexivity. rewrite !fold_lines. cbn [app].
    intros E. injection E as <-. f_equal. rewrite map_id. apply stripped_lines. }
  destruct (file_string_lemma content) as [A B]. split; intros H; [exact (X _ (A H))|].
  rewrite (X _ (B H)). f_equal. unfold without_carriage_returns. rewrite filter_app. reflexivity.
Qed.

Lemma file_missing_lemma : forall sc se, file_to_strings None sc se = Throw PreconditionNotMet /\ file_to_string None sc = Throw PreconditionNotMet.
Proof. split; reflexivity. Qed.

Lemma file_idempotent_lemma : forall content sc t, file_to_string (Some content) sc = Ret t -> file_to_string (Some t) sc = Ret t.
Proof.
  intros content sc t. destruct (file_form_lemma content) as (lines & u & -> & Hl & Hu). unfold file_to_string.
  rewrite file_lines_lemma by assumption. cbn [obind andb negb]. rewrite filter_all by reflexivity. rewrite fold_lines. cbn [app].
  intros E. injection E as <-. set (ls := map _ (lines_of lines u)).
  assert (Hls : Forall (fun l => ~ In newline l) ls).
  { unfold ls. apply Forall_map. unfold lines_of. apply Forall_app. split.
    - eapply Forall_impl; [|exact Hl]. intros l H. destruct sc; [|exact H]. intros Hi. apply H. apply filter_In in Hi as [Hi _]. exact Hi.
    - destruct u as [|x u]; [constructor|]. constructor; [|constructor]. destruct sc; [|exact Hu]. intros Hi. apply Hu. apply filter_In in Hi as [Hi _]. exact Hi. }
  assert (Ef : concat (map (fun l : str => l ++ [newline]) ls) = file_of_lines ls []) by (unfold file_of_lines; rewrite app_nil_r; reflexivity).
  match goal with |- obind (file_to_strings (Some ?x) _ _) _ = Ret ?x => change x with (concat (map (fun l : str => l ++ [newline]) ls)); replace (concat (map (fun l : str => l ++ [newline]) ls)) with (file_of_lines ls []) by (symmetry; exact Ef) end.
  rewrite file_lines_lemma; [|exact Hls|intros []]. cbn [obind andb negb]. rewrite filter_all by reflexivity. rewrite fold_lines. cbn [app].
  f_equal. unfold lines_of. rewrite app_nil_r. symmetry. etransitivity; [symmetry; exact Ef|]. symmetry. f_equal. f_equal. unfold ls. rewrite map_map. apply map_ext. intros l.
  destruct sc; [|reflexivity]. unfold without_carriage_returns. clear. induction l as [|x l IH]; [reflexivity|]. cbn [filter].
  destruct (negb (Ascii.eqb x carriage_return)) eqn:E; [cbn [filter]; rewrite E, IH; reflexivity|exact IH].
Qed.

Lemma carriage_refute : exists l, ~ In newline l /\ file_to_strings (Some (l ++ [newline])) true false = Ret [s "ab"] /\ l = s "a" ++ [carriage_return] ++ s "b".
Proof.
  exists (s "a" ++ [carriage_return] ++ s "b"). split; [cbn; intuition discriminate|]. split; [vm_compute|]; reflexivity.
Qed.
