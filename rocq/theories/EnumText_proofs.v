(** Proofs for C108: the texts of the fields. *)
From Coq Require Import Lia.
From Verif Require Import EnumGen_proofs.
Open Scope nat_scope.

Lemma white_space c : white [c] <-> is_space c = true.
Proof.
  split.
  - intro H. specialize (H c (or_introl eq_refl)). cbn [map In] in H. repeat (destruct H as [<-|H]; [reflexivity|]). destruct H.
  - intros H d [<-|[]]. destruct c as [[] [] [] [] [] [] [] []]; try discriminate H; cbn; tauto.
Qed.
Lemma lstrip_split t : exists l, t = l ++ lstrip t /\ white l /\ (forall c u, lstrip t = c :: u -> is_space c = false).
Proof.
  induction t as [|c t (l & E & W & F)]; [exists []; split; [reflexivity|]; split; [intros ? []|discriminate]|]. cbn [lstrip]. destruct (is_space c) eqn:C.
  - exists (c :: l). split; [cbn; congruence|]. split; [|exact F]. intros d [<-|I]; [apply (proj2 (white_space c) C c); left; reflexivity|exact (W d I)].
  - exists []. split; [reflexivity|]. split; [intros ? []|]. intros d u H. injection H as <- _. exact C.
Qed.
Lemma strip_split t : exists l r, t = l ++ py_strip t ++ r /\ white l /\ white r /\ (forall c u, py_strip t = c :: u \/ py_strip t = u ++ [c] -> is_space c = false).
Proof.
  destruct (lstrip_split t) as (l & E & W & F). unfold py_strip. destruct (lstrip_split (rev (lstrip t))) as (r & E2 & W2 & F2). set (v := lstrip (rev (lstrip t))) in *.
  exists l, (rev r). assert (K : lstrip t = rev v ++ rev r) by (rewrite <- rev_app_distr, <- E2, rev_involutive; reflexivity).
  split; [rewrite <- K; exact E|]. split; [exact W|]. split; [intros c I; apply W2; apply in_rev; exact I|]. intros c u [H|H].
  - apply (F c (u ++ rev r)). rewrite K, H. reflexivity.
  - apply (F2 c (rev u)). apply (f_equal (@rev ascii)) in H. rewrite rev_involutive, rev_app_distr in H. exact H.
Qed.
Lemma last_split c t : exists dir, t = dir ++ last (py_split c t) [] /\ (dir = [] \/ exists d, dir = d ++ [c]) /\ ~ In c (last (py_split c t) []).
Proof.
  induction t as [|x t (dir & E & D & N)]; [exists []; split; [reflexivity|]; split; [left; reflexivity|intros []]|]. cbn [py_split]. destruct (py_split c t) as [|y l] eqn:S; [now destruct (split_nonempty c t)|].
  destruct (Ascii.eqb x c) eqn:C.
  - apply Ascii.eqb_eq in C. subst x. change (last ([] :: y :: l) []) with (last (y :: l) []). exists (c :: dir). split; [cbn [app]; congruence|]. split; [|exact N]. right. destruct D as [->|(d & ->)]; [exists []; reflexivity|exists (c :: d); reflexivity].
  - destruct l as [|z l].
    + cbn [last] in *. destruct D as [->|(d & ->)]; [exists []; split; [cbn in *; congruence|]; split; [left; reflexivity|]|exists (x :: d ++ [c])].
      * intros [H|H]; [subst x; rewrite Ascii.eqb_refl in C; discriminate|exact (N H)].
      * exfalso. pose proof (split_pieces c t) as F. rewrite S in F.
        assert (L : forall w, py_split c w = [y] -> ~ In c w). { clear. intro w. revert y. induction w as [|x w IH]; intros y H; [intros []|]. cbn [py_split] in H. destruct (py_split c w) as [|q l] eqn:E; [now destruct (split_nonempty c w)|]. destruct (Ascii.eqb x c) eqn:C; [discriminate|]. injection H as _ ->. intros [K|K]; [subst x; rewrite Ascii.eqb_refl in C; discriminate|exact (IH q eq_refl K)]. }
        apply (L t S). rewrite E. apply in_or_app. left. apply in_or_app. right. left. reflexivity.
    + change (last ((x :: y) :: z :: l) []) with (last (y :: z :: l) []). exists (x :: dir). split; [cbn [app]; congruence|]. split; [|exact N]. right. destruct D as [->|(d & ->)]; [|exists (x :: d); reflexivity].
      exfalso. cbn [app] in E. rewrite <- E in N. rewrite (split_none c t N) in S. discriminate.
Qed.
Lemma file_name path : name_of_file path (get_file_name_from_path path).
Proof.
  unfold get_file_name_from_path. destruct (last_split "/" path) as (d1 & E1 & D1 & N1). set (p1 := last (py_split "/" path) []) in *. destruct (last_split "\" p1) as (d2 & E2 & D2 & N2). set (p2 := last (py_split "\" p1) []) in *.
  destruct (strip_split p2) as (l & r & E3 & W1 & W2 & F). exists (d1 ++ d2), l, r. split; [rewrite <- E3, <- app_assoc, <- E2; exact E1|]. split.
  - destruct D2 as [->|(d & ->)]; [rewrite app_nil_r; destruct D1 as [->|(d & ->)]; [left; reflexivity|right; exists d, "/"%char; split; [reflexivity|left; reflexivity]]|]. right. exists (d1 ++ d), "\"%char. split; [rewrite app_assoc; reflexivity|right; reflexivity].
  - split; [|split; [exact W1|split; [exact W2|intros c t H W; apply white_space in W; rewrite (F c t H) in W; discriminate]]]. intros c I [K|K]; subst c; rewrite <- E3 in I; [apply N1; rewrite E2; apply in_or_app; right; exact I|exact (N2 I)].
Qed.

Definition line_of (a : str) : str := if py_in "-"%char a then newline :: s " *   " ++ a else s " " ++ get_file_name_from_path a.
Lemma join_snoc sep l x : l <> [] -> py_join sep (l ++ [x]) = py_join sep l ++ sep ++ x.
Proof.
  induction l as [|y l IH]; [easy|]. intros _. destruct l as [|z l]; [cbn; rewrite !app_nil_r; reflexivity|]. change (py_join sep ((y :: z :: l) ++ [x])) with (y ++ sep ++ py_join sep ((z :: l) ++ [x])). rewrite IH by discriminate.
  change (py_join sep (y :: z :: l)) with (y ++ sep ++ py_join sep (z :: l)). rewrite !app_assoc. reflexivity.
Qed.
Lemma join_last sep l x : l <> [] -> py_join sep (removelast l ++ [last l [] ++ x]) = py_join sep l ++ x.
Proof.
  intro N. destruct (exists_last N) as (a & y & ->). rewrite removelast_last, last_last. destruct a as [|z a]; [cbn; rewrite !app_nil_r; reflexivity|]. rewrite !join_snoc by discriminate. rewrite !app_assoc. reflexivity.
Qed.
Lemma command_lines argv : forall l, l <> [] -> py_join (newline :: s " *   ") (fold_left add_argument argv l) = py_join (newline :: s " *   ") l ++ flat_map line_of argv.
Proof.
  induction argv as [|a argv IH]; intros l N; [cbn; rewrite app_nil_r; reflexivity|]. cbn [fold_left flat_map]. rewrite IH by (unfold add_argument; destruct (py_in _ a); intro K; apply app_eq_nil in K; destruct K; discriminate).
  unfold add_argument, line_of. destruct (py_in "-"%char a); [rewrite join_snoc by exact N|rewrite join_last by exact N]; rewrite <- !app_assoc; reflexivity.
Qed.
Lemma command_text argv : get_command_executed argv = s "enumeration_builder.py" ++ flat_map (fun a => if in_dec ascii_dec "-"%char a then newline :: s " *   " ++ a else s " " ++ get_file_name_from_path a) argv.
Proof.
  unfold get_command_executed. rewrite command_lines by discriminate. unfold script. f_equal. change (py_join _ [[]]) with (@nil ascii). cbn [app]. induction argv as [|a argv IH]; [reflexivity|]. cbn [flat_map]. rewrite IH. f_equal. unfold line_of.
  assert (K : py_in "-"%char a = true <-> In "-"%char a). { unfold py_in. rewrite existsb_exists. split; [intros (x & I & E); apply Ascii.eqb_eq in E; subst x; exact I|intro I; exists "-"%char; split; [exact I|reflexivity]]. }
  destruct (in_dec ascii_dec "-"%char a) as [I|I]; [rewrite (proj2 K I); reflexivity|]. destruct (py_in "-"%char a); [exfalso; apply I, K; reflexivity|reflexivity].
Qed.
