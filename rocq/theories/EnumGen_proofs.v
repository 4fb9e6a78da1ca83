From Coq Require Import Lia ZifyBool ZifyNat ZifyN.
From Verif Require Export EnumGen_spec Str_proofs Math_proofs.
Open Scope list_scope.
Open Scope nat_scope.

(** ** str *)
Lemma split_nonempty c t : py_split c t <> [].
Proof. destruct t as [|x t]; cbn; [easy|]. destruct (py_split c t); [easy|]. destruct (Ascii.eqb x c); easy. Qed.
Lemma split_none c t : without c t -> py_split c t = [t].
Proof.
  induction t as [|x t IH]; intros N; [easy|]. cbn. rewrite IH by (intros H; apply N; now right).
  destruct (Ascii.eqb_spec x c); [destruct N; now left | easy].
Qed.
Lemma split_app c t u : without c t -> py_split c (t ++ c :: u) = t :: py_split c u.
Proof.
  induction t as [|x t IH]; intros N; cbn.
  - destruct (py_split c u) eqn:E; [now destruct (split_nonempty c u)|]. now rewrite Ascii.eqb_refl.
  - rewrite IH by (intros H; apply N; now right). destruct (Ascii.eqb_spec x c); [destruct N; now left | easy].
Qed.
Lemma py_join_join sep l : py_join sep l = join sep l.
Proof. induction l as [|x [|y l] IH]; cbn in *; [easy|now rewrite app_nil_r|]. now rewrite IH. Qed.
Lemma split_join c l : l <> [] -> Forall (without c) l -> py_split c (join [c] l) = l.
Proof.
  induction l as [|x [|y l] IH]; intros N F; [easy| |].
  - inversion F; subst. now apply split_none.
  - inversion F as [|? ? A B]; subst. change (join [c] (x :: y :: l)) with (x ++ c :: join [c] (y :: l)).
    rewrite split_app by easy. now rewrite IH.
Qed.
Lemma split_pieces c t : Forall (without c) (py_split c t).
Proof.
  induction t as [|x t IH]; cbn; [repeat constructor; easy|].
  destruct (py_split c t) as [|y l] eqn:E; [now destruct (split_nonempty c t)|]. inversion IH as [|? ? A B]; subst.
  destruct (Ascii.eqb_spec x c); constructor; try easy. intros [H|H]; [congruence | now apply A].
Qed.
Lemma split_incl c t x : In x (py_split c t) -> incl x t.
Proof.
  revert x. induction t as [|y t IH]; cbn; intros x H.
  - destruct H as [<-|[]]. easy.
  - destruct (py_split c t) as [|z l] eqn:E; [now destruct (split_nonempty c t)|].
    destruct (Ascii.eqb y c).
    + destruct H as [<-|H]; [easy|]. intros a Ha. right. now apply (IH x H).
    + destruct H as [<-|H]; [|intros a Ha; right; apply (IH x); [now right|easy]].
      intros a [->|Ha]; [now left|]. right. apply (IH z); [now left|easy].
Qed.
Lemma lstrip_suffix t : exists u, t = u ++ lstrip t /\ Forall (fun c => is_space c = true) u.
Proof.
  induction t as [|c t (u & E & F)]; [now exists []|]. cbn. destruct (is_space c) eqn:S.
  - exists (c :: u). split; [cbn; now f_equal | now constructor].
  - now exists [].
Qed.
Lemma strip_parts t : exists u v, t = u ++ py_strip t ++ v /\ Forall (fun c => is_space c = true) (u ++ v).
Proof.
  destruct (lstrip_suffix t) as (u & E & F). destruct (lstrip_suffix (rev (lstrip t))) as (v & G & H).
  exists u, (rev v). split.
  - unfold py_strip. rewrite <- rev_app_distr, <- G, rev_involutive. exact E.
  - apply Forall_app. split; [easy|]. now apply Forall_rev.
Qed.
Lemma strip_incl t : incl (py_strip t) t.
Proof. destruct (strip_parts t) as (u & v & E & _). rewrite E at 2. intros c H. apply in_or_app. right. apply in_or_app. now left. Qed.
Lemma last_incl (t : list str) x : t <> [] -> In x t -> True.
Proof. easy. Qed.
Lemma last_in {A} (l : list A) d : l <> [] -> In (last l d) l.
Proof. induction l as [|x [|y l] IH]; intros N; [easy|now left|]. right. now apply IH. Qed.
Lemma file_name_incl t : incl (get_file_name_from_path t) t.
Proof.
  unfold get_file_name_from_path. intros c H. apply strip_incl in H.
  eapply split_incl in H; [|apply last_in, split_nonempty].
  eapply split_incl in H; [exact H|]. apply last_in, split_nonempty.
Qed.
Lemma file_name_no_slash t : without "/"%char (get_file_name_from_path t).
Proof.
  unfold get_file_name_from_path. intros H. apply strip_incl in H.
  eapply split_incl in H; [|apply last_in, split_nonempty].
  pose proof (split_pieces "/"%char t) as F. rewrite Forall_forall in F. apply (F (last (py_split "/"%char t) [])); [|easy].
  apply last_in, split_nonempty.
Qed.
Lemma remove_blanks_filter t : remove_blanks t = unblank t.
Proof.
  unfold remove_blanks, py_replace, unblank. induction t as [|c t IH]; [easy|].
  change (s " ") with [" "%char] in *. cbn [replace_loop]. cbn [prefixb List.length pred filter].
  rewrite andb_true_r, (Ascii.eqb_sym " "%char c). destruct (Ascii.eqb c " "%char); cbn; now rewrite IH.
Qed.
Lemma filter_none {A} (f : A -> bool) l : (forall x, In x l -> f x = false) -> filter f l = [].
Proof. induction l as [|x l IH]; intros H; [easy|]. cbn. rewrite (H x) by now left. apply IH. intros y Hy. apply H. now right. Qed.
Lemma unblank_strip t : only_blanks t -> unblank (py_strip t) = unblank t.
Proof.
  intros O. destruct (strip_parts t) as (u & v & E & F). apply Forall_app in F as [F G].
  assert (K : forall w, Forall (fun c => is_space c = true) w -> incl w t -> unblank w = []).
  { intros w W I. apply filter_none. intros c Hc. rewrite Forall_forall in W. rewrite (O c (I c Hc) (W c Hc)). easy. }
  rewrite E at 2. unfold unblank in *. rewrite !filter_app, (K u F), (K v G), app_nil_r; [easy| |].
  - rewrite E. intros c Hc. apply in_or_app. right. apply in_or_app. now right.
  - rewrite E. intros c Hc. apply in_or_app. now left.
Qed.
Lemma py_in_iff c t : py_in c t = true <-> In c t.
Proof.
  unfold py_in. rewrite existsb_exists. split.
  - intros (x & H & E). apply Ascii.eqb_eq in E. now subst.
  - intros H. exists c. split; [easy|apply Ascii.eqb_refl].
Qed.

Lemma join_two (c : ascii) x y l : In c (join [c] (x :: y :: l)).
Proof. change (join [c] (x :: y :: l)) with (x ++ c :: join [c] (y :: l)). apply in_or_app. right. now left. Qed.
Lemma in_join (c : ascii) sep l : In c (join sep l) -> In c sep \/ exists x, In x l /\ In c x.
Proof.
  induction l as [|x [|y l] IH]; cbn [join]; intros H; [easy|right; exists x; split; [now left|easy]|].
  apply in_app_or in H as [H|H]; [right; exists x; split; [now left|easy]|]. apply in_app_or in H as [H|H]; [now left|].
  destruct (IH H) as [K|(z & K & L)]; [now left|]. right. exists z. split; [now right|easy].
Qed.
Lemma map_unblank l : Forall only_blanks l -> map (fun x => remove_blanks (py_strip x)) l = map unblank l.
Proof.
  intros F. apply map_ext_Forall. revert F. apply Forall_impl. intros x O. rewrite remove_blanks_filter. now apply unblank_strip.
Qed.
Lemma values_semicolon l : 2 <= List.length l -> Forall (without ";"%char) l -> Forall only_blanks l -> parse_values (join (s ";") l) = map unblank l.
Proof.
  intros L F O. destruct l as [|x [|y l]]; cbn in L; try lia. unfold parse_values. change (s ";") with [";"%char].
  replace (py_in _ _) with true by (symmetry; apply py_in_iff, join_two). cbn [nat_of_ascii].
  rewrite split_join by easy. now apply map_unblank.
Qed.
Lemma values_comma l : l <> [] -> Forall (without ";"%char) l -> Forall (without ","%char) l -> Forall only_blanks l -> parse_values (join (s ",") l) = map unblank l.
Proof.
  intros L F G O. unfold parse_values. change (s ",") with [","%char].
  destruct (py_in ";"%char (join [","%char] l)) eqn:E.
  - apply py_in_iff, in_join in E as [[E|[]]|(x & H & K)]; [discriminate E|]. rewrite Forall_forall in F. now destruct (F x H).
  - rewrite split_join by easy. now apply map_unblank.
Qed.
Lemma unblank_incl t : incl (unblank t) t.
Proof. intros c H. now apply filter_In in H. Qed.
Lemma values_clean t x : In x (parse_values t) -> without ";"%char x /\ without " "%char x.
Proof.
  unfold parse_values. intros H. apply in_map_iff in H as (y & <- & H). rewrite remove_blanks_filter. split.
  - intros K. apply unblank_incl, strip_incl in K. destruct (py_in ";"%char t) eqn:E.
    + pose proof (split_pieces ";"%char t) as F. rewrite Forall_forall in F. now destruct (F y H).
    + apply (split_incl _ _ _ H) in K. apply py_in_iff in K. congruence.
  - intros K. unfold unblank in K. apply filter_In in K as [_ K]. discriminate K.
Qed.

(** ** Filling the template *)
(** a text and holes, each followed by a text *)
Definition document := (str * list (str * str))%type.
Definition flat (d : document) : str := fst d ++ flat_map (fun x => s "%" ++ fst x ++ s "%" ++ snd x) (snd d).
Definition name_character (c : ascii) : bool := let n := N_of_ascii c in ((97 <=? n) && (n <=? 122) || (n =? 95))%N.
Definition is_name (n : str) : Prop := n <> [] /\ Forall (fun c => name_character c = true) n.
Definition ends_name (t : str) : Prop := exists c t', t = c :: t' /\ name_character c = false.
Definition good (d : document) : Prop :=
  without "%"%char (fst d) /\ Forall (fun x => is_name (fst x) /\ without "%"%char (snd x) /\ ends_name (snd x)) (snd d).
(** the holes [n] become the text [r] *)
Fixpoint put (n r : str) (t : str) (l : list (str * str)) : document :=
  match l with
  | [] => (t, [])
  | (m, u) :: l' => if str_eqb m n then put n r (t ++ r ++ u) l'
                    else let d := put n r u l' in (t, (m, fst d) :: snd d)
  end.

Lemma loop_skip old new t u : replace_loop old new (List.length t) (t ++ u) = replace_loop old new 0 u.
Proof. induction t as [|c t IH]; [easy|]. exact IH. Qed.
Lemma loop_text old new t u : (forall v, prefixb old v = true -> exists w, v = "%"%char :: w) -> without "%"%char t ->
  replace_loop old new 0 (t ++ u) = t ++ replace_loop old new 0 u.
Proof.
  intros P. induction t as [|c t IH]; intros N; [easy|]. cbn [app replace_loop].
  destruct (prefixb old (c :: t ++ u)) eqn:E.
  - apply P in E as (w & [= -> _]). destruct N. now left.
  - f_equal. apply IH. intros H. apply N. now right.
Qed.
Lemma loop_match old new u : old <> [] -> replace_loop old new 0 (old ++ u) = new ++ replace_loop old new 0 u.
Proof.
  intros N. destruct old as [|c old]; [easy|].
  change ((c :: old) ++ u) with (c :: old ++ u). cbn [replace_loop].
  change (c :: old ++ u) with ((c :: old) ++ u). rewrite prefixb_app. cbn [List.length pred]. now rewrite loop_skip.
Qed.
Lemma name_no_percent n : is_name n -> without "%"%char n.
Proof. intros [_ F] H. rewrite Forall_forall in F. apply F in H. discriminate H. Qed.
Definition old_of (n : str) : str := s "%" ++ n ++ s "%".
Lemma old_eq n : old_of n = "%"%char :: n ++ ["%"%char].
Proof. reflexivity. Qed.
Lemma prefixb_cons x p y t : prefixb (x :: p) (y :: t) = Ascii.eqb x y && prefixb p t.
Proof. reflexivity. Qed.
Lemma old_starts n v : prefixb (old_of n) v = true -> exists w, v = "%"%char :: w.
Proof. rewrite old_eq. destruct v as [|c v]; [easy|]. rewrite prefixb_cons. intros H. apply andb_prop in H as [H _]. apply Ascii.eqb_eq in H. exists v. now subst. Qed.
Lemma name_prefix n m u : without "%"%char n -> without "%"%char m -> prefixb (n ++ ["%"%char]) (m ++ "%"%char :: u) = true -> n = m.
Proof.
  revert m. induction n as [|c n IH]; intros m N M H; cbn [app] in H.
  - destruct m as [|d m]; [easy|]. cbn [app] in H. rewrite prefixb_cons in H. destruct (Ascii.eqb_spec "%"%char d) as [<-|]; [destruct M; now left|discriminate H].
  - destruct m as [|d m]; cbn [app] in H; rewrite prefixb_cons in H.
    + destruct (Ascii.eqb_spec c "%"%char) as [->|]; [destruct N; now left | discriminate H].
    + apply andb_prop in H as [H K]. apply Ascii.eqb_eq in H. subst. f_equal. apply (IH m); auto; intros J; [apply N|apply M]; now right.
Qed.
Lemma loop_other n r m u : is_name n -> is_name m -> m <> n -> ends_name u -> forall v,
  replace_loop (old_of n) r 0 (old_of m ++ u ++ v) = old_of m ++ replace_loop (old_of n) r 0 (u ++ v).
Proof.
  intros A B N (c & u' & -> & C) v. unfold old_of at 2 3. change (s "%") with ["%"%char].
  rewrite <- !app_assoc. cbn [app]. cbn [replace_loop].
  destruct (prefixb (old_of n) _) eqn:E.
  { rewrite old_eq, prefixb_cons, Ascii.eqb_refl in E. apply name_prefix in E; [congruence | now apply name_no_percent | now apply name_no_percent]. }
  f_equal. rewrite loop_text; [|apply old_starts|now apply name_no_percent]. f_equal.
  cbn [replace_loop]. destruct (prefixb (old_of n) ("%"%char :: c :: u' ++ v)) eqn:F; [|easy].
  rewrite old_eq in F. destruct A as [A0 A1]. destruct n as [|x n]; [easy|]. cbn [app] in F. rewrite !prefixb_cons, Ascii.eqb_refl in F. inversion A1; subst.
  destruct (Ascii.eqb_spec x c); [congruence | discriminate F].
Qed.
Lemma put_flat n r : is_name n -> without "%"%char r -> forall l t, good (t, l) ->
  replace_in_text (flat (t, l)) n r = flat (put n r t l).
Proof.
  intros A R. induction l as [|[m u] l IH]; intros t (T & F); cbn in T, F.
  - unfold flat, replace_in_text, py_replace. cbn. rewrite loop_text; [easy|apply old_starts|easy].
  - inversion F as [|? ? (M & U & E) F']; subst. cbn in M, U, E. cbn [put].
    destruct (str_eqb m n) eqn:Q.
    + apply str_eqb_eq in Q as ->.
      assert (G : good (t ++ r ++ u, l)).
      { split; [|easy]. cbn. intros H. apply in_app_or in H as [H|H]; [now apply T|]. apply in_app_or in H as [H|H]; [now apply R|now apply U]. }
      rewrite <- (IH _ G). unfold replace_in_text, py_replace, flat. cbn [fst snd flat_map].
      change (s "%" ++ n ++ s "%") with (old_of n).
      replace (t ++ (s "%" ++ n ++ s "%" ++ u) ++ flat_map (fun x => s "%" ++ fst x ++ s "%" ++ snd x) l)
        with (t ++ old_of n ++ u ++ flat_map (fun x => s "%" ++ fst x ++ s "%" ++ snd x) l) by (unfold old_of; now rewrite <- !app_assoc).
      rewrite loop_text; [|apply old_starts|easy]. rewrite loop_match by easy.
      rewrite <- !app_assoc. rewrite (loop_text _ _ t); [|apply old_starts|easy]. rewrite (loop_text _ _ r); [easy|apply old_starts|easy].
    + apply str_eqb_neq in Q. assert (G : good (u, l)) by (split; easy). specialize (IH _ G).
      unfold flat at 2. cbn [fst snd flat_map]. unfold replace_in_text, py_replace, flat in *. cbn [fst snd flat_map] in *.
      change (s "%" ++ n ++ s "%") with (old_of n) in *.
      replace (t ++ (s "%" ++ m ++ s "%" ++ u) ++ flat_map (fun x => s "%" ++ fst x ++ s "%" ++ snd x) l)
        with (t ++ old_of m ++ u ++ flat_map (fun x => s "%" ++ fst x ++ s "%" ++ snd x) l) by (unfold old_of; now rewrite <- !app_assoc).
      rewrite loop_text; [|apply old_starts|easy]. rewrite loop_other by easy. rewrite IH.
      unfold old_of. now rewrite <- !app_assoc.
Qed.
Lemma ends_name_app t u : ends_name t -> ends_name (t ++ u).
Proof. intros (c & t' & -> & H). exists c, (t' ++ u). easy. Qed.
Lemma without_app c t u : without c t -> without c u -> without c (t ++ u).
Proof. intros A B H. apply in_app_or in H as [H|H]; [now apply A | now apply B]. Qed.
Lemma put_prefix n r l : forall t, exists u, fst (put n r t l) = t ++ u.
Proof.
  induction l as [|[m v] l IH]; intros t; cbn [put]; [exists []; cbn; now rewrite app_nil_r|].
  destruct (str_eqb m n); [|exists []; cbn; now rewrite app_nil_r]. destruct (IH (t ++ r ++ v)) as (u & ->). exists (r ++ v ++ u). now rewrite <- !app_assoc.
Qed.
Lemma put_good n r : without "%"%char r -> forall l t, good (t, l) -> good (put n r t l).
Proof.
  intros R. induction l as [|[m u] l IH]; intros t (T & F); cbn in T, F; [easy|].
  inversion F as [|? ? (M & U & E) F']; subst. cbn in M, U, E. cbn [put]. destruct (str_eqb m n).
  - apply IH. split; [|easy]. cbn. now repeat apply without_app.
  - destruct (IH u (conj U F')) as (A & B). cbn. split; [easy|]. cbn. constructor; [|easy]. cbn. split; [easy|]. split; [easy|].
    destruct (put_prefix n r l u) as (v & ->). now apply ends_name_app.
Qed.
Definition subst (f : str -> str) (d : document) : str := fst d ++ flat_map (fun x => f (fst x) ++ snd x) (snd d).
Lemma put_subst f n r : f n = r -> forall l t, subst f (put n r t l) = subst f (t, l).
Proof.
  intros <-. induction l as [|[m u] l IH]; intros t; [easy|]. cbn [put]. destruct (str_eqb m n) eqn:Q.
  - apply str_eqb_eq in Q as ->. rewrite IH. unfold subst. cbn. now rewrite <- !app_assoc.
  - specialize (IH u). unfold subst in *. cbn [fst snd flat_map] in *. rewrite <- !app_assoc. now rewrite IH.
Qed.
Lemma put_holes n r : forall l t, map fst (snd (put n r t l)) = filter (fun m => negb (str_eqb m n)) (map fst l).
Proof.
  induction l as [|[m u] l IH]; intros t; [easy|]. cbn [put map fst filter]. destruct (str_eqb m n); cbn; [apply IH|now rewrite IH].
Qed.
Lemma fill_subst f : forall l t, good (t, l) -> fill f (flat (t, l)) = subst f (t, l).
Proof.
  unfold fill. induction l as [|[m u] l IH]; intros t (T & F); cbn in T, F.
  - unfold flat, subst. cbn. rewrite app_nil_r, split_none by easy. cbn. now rewrite ?app_nil_r.
  - inversion F as [|? ? (M & U & E) F']; subst. cbn in M, U, E.
    replace (flat (t, (m, u) :: l)) with (t ++ "%"%char :: m ++ "%"%char :: flat (u, l)) by (unfold flat; cbn; now rewrite <- !app_assoc).
    rewrite split_app by easy. rewrite split_app by now apply name_no_percent. cbn [alternate negb]. rewrite IH by easy.
    unfold subst. cbn. now rewrite <- !app_assoc.
Qed.

Fixpoint replacements (text : str) (l : list (str * str)) : str :=
  match l with
  | [] => text
  | (n, r) :: l' => replacements (replace_in_text text n r) l'
  end.
Lemma fill_all f l : Forall (fun x => is_name (fst x) /\ without "%"%char (snd x) /\ f (fst x) = snd x) l -> forall d, good d ->
  exists d', good d' /\ replacements (flat d) l = flat d' /\ subst f d' = subst f d /\
    map fst (snd d') = fold_left (fun hs n => filter (fun m => negb (str_eqb m n)) hs) (map fst l) (map fst (snd d)).
Proof.
  induction l as [|[n r] l IH]; intros F d G; [exists d; easy|].
  inversion F as [|? ? (A & B & C) F']; subst. cbn in A, B, C. destruct d as [t hs]. cbn [replacements]. rewrite put_flat by easy.
  destruct (IH F' _ (put_good n r B hs t G)) as (d' & K & L & M & N). exists d'. split; [easy|]. split; [easy|].
  split; [now rewrite M, put_subst|]. rewrite N. cbn [map fst fold_left snd]. now rewrite put_holes.
Qed.

(** the template *)
Fixpoint holes_of (l : list str) : list (str * str) :=
  match l with
  | n :: t :: l' => (n, t) :: holes_of l'
  | _ => []
  end.
Definition document_of (t : str) : document := match py_split "%"%char t with [] => ([], []) | x :: l => (x, holes_of l) end.
Definition template : document := Eval vm_compute in document_of TEMPLATE_TEXT.
Lemma template_flat : TEMPLATE_TEXT = flat template.
Proof. vm_compute. reflexivity. Qed.
Definition good_check (d : document) : bool :=
  negb (py_in "%"%char (fst d)) &&
  forallb (fun x => negb (match fst x with [] => true | _ => false end) && forallb name_character (fst x) && negb (py_in "%"%char (snd x)) &&
                    match snd x with c :: _ => negb (name_character c) | [] => false end) (snd d).
Lemma py_in_false c t : py_in c t = false -> without c t.
Proof. intros H K. apply py_in_iff in K. congruence. Qed.
Lemma good_check_ok d : good_check d = true -> good d.
Proof.
  unfold good_check. intros H. apply andb_prop in H as [A B]. split.
  - apply py_in_false. now apply negb_true_iff in A.
  - rewrite forallb_forall in B. apply Forall_forall. intros [n t] H. apply B in H. cbn [fst snd] in *.
    apply andb_prop in H as [H E]. apply andb_prop in H as [H D]. apply andb_prop in H as [H C].
    split; [split|split].
    + destruct n; easy.
    + rewrite forallb_forall in C. now apply Forall_forall.
    + apply py_in_false. now apply negb_true_iff in D.
    + destruct t as [|c t]; [easy|]. exists c, t. split; [easy|]. now apply negb_true_iff in E.
Qed.
Lemma template_good : good template.
Proof. apply good_check_ok. vm_compute. reflexivity. Qed.

Lemma in_py_join (c : ascii) sep l : In c (py_join sep l) -> In c sep \/ exists x, In x l /\ In c x.
Proof. rewrite py_join_join. apply in_join. Qed.
Lemma without_join c sep l : without c sep -> Forall (without c) l -> without c (py_join sep l).
Proof.
  intros A B H. apply in_py_join in H as [H|(x & H & K)]; [now apply A|]. rewrite Forall_forall in B. now apply (B x).
Qed.
Lemma without_incl c t u : incl t u -> without c u -> without c t.
Proof. intros I N H. apply N, I, H. Qed.
Lemma without_file_name c t : without c t -> without c (get_file_name_from_path t).
Proof. apply without_incl, file_name_incl. Qed.
Lemma digit_range n : (n < 10)%N -> (48 <= N_of_ascii (digit n) <= 57)%N.
Proof. intros H. unfold digit. rewrite N_ascii_embedding; lia. Qed.
Lemma dec_loop_digits fuel : forall n acc, Forall (fun c => 48 <= N_of_ascii c <= 57)%N acc -> Forall (fun c => 48 <= N_of_ascii c <= 57)%N (dec_loop fuel n acc).
Proof.
  induction fuel as [|fuel IH]; intros n acc F; [easy|]. cbn [dec_loop].
  assert (K : Forall (fun c => 48 <= N_of_ascii c <= 57)%N (digit (n mod 10) :: acc)).
  { constructor; [|easy]. apply digit_range. apply N.mod_lt. lia. }
  destruct (n / 10 =? 0)%N; [easy|]. now apply IH.
Qed.
Lemma dec_digits n : Forall (fun c => 48 <= N_of_ascii c <= 57)%N (dec n).
Proof. apply dec_loop_digits. constructor. Qed.
Lemma add_argument_without c l arg : without c (s " ") -> Forall (without c) l -> without c arg -> Forall (without c) (add_argument l arg).
Proof.
  intros B F A. unfold add_argument. destruct (py_in _ arg).
  - apply Forall_app. split; [easy|]. now constructor.
  - apply Forall_app. split.
    + apply Forall_forall. intros x H. rewrite Forall_forall in F. apply F. clear -H.
      induction l as [|y [|z l] IH]; cbn in *; [easy|easy|]. destruct H as [->|H]; [now left|]. right. now apply IH.
    + constructor; [|constructor]. apply without_app; [|apply without_app; [easy|now apply without_file_name]].
      destruct l as [|y l]; [easy|]. rewrite Forall_forall in F. apply F. now apply last_in.
Qed.
Lemma arguments_without c argv : without c (s " ") -> Forall (without c) argv -> forall l, Forall (without c) l -> Forall (without c) (fold_left add_argument argv l).
Proof.
  intros B. induction argv as [|a argv IH]; intros F l G; [easy|]. inversion F; subst. cbn. apply IH; [easy|]. now apply add_argument_without.
Qed.
Ltac nopercent := let H := fresh in intros H; repeat (destruct H as [H|H]; [discriminate H|]); exact H.
Lemma command_without argv : Forall (without "%"%char) argv -> without "%"%char (get_command_executed argv).
Proof.
  intros F. unfold get_command_executed. apply without_app; [nopercent|]. apply without_join; [nopercent|].
  apply arguments_without; [nopercent|easy|]. constructor; [easy|constructor].
Qed.
Lemma without_map c (g : str -> str) l : (forall x, without c x -> without c (g x)) -> Forall (without c) l -> Forall (without c) (map g l).
Proof. intros H F. apply Forall_map. revert F. apply Forall_impl. exact H. Qed.

Section Text.
Variables (year : str) (argv : list str) (name : str) (values namespaces : list str) (output_file : str).
Let es := entries year argv name values namespaces output_file.
Lemma entries_good : plain_arguments year argv name values namespaces output_file ->
  Forall (fun x => is_name (fst x) /\ without "%"%char (snd x) /\ entry es (fst x) = snd x) es.
Proof.
  unfold plain_arguments. intros F. inversion F as [|? ? F1 G1]; subst. inversion G1 as [|? ? F2 G2]; subst. inversion G2 as [|? ? F3 G3]; subst.
  apply Forall_app in G3 as [F4 G4]. apply Forall_app in G4 as [F5 F6].
  assert (N : forall n, negb (match n with [] => true | _ => false end) && forallb name_character n = true -> is_name n).
  { intros n H. apply andb_prop in H as [A B]. split; [now destruct n|]. apply Forall_forall. now apply forallb_forall. }
  unfold es, entries. repeat constructor; try (apply N; reflexivity); cbn [snd fst]; try easy.
  - now apply without_file_name.
  - now apply command_without.
  - apply without_join; [nopercent|]. apply without_map; [|easy]. intros x H. repeat apply without_app; try easy; nopercent.
  - apply without_join; [nopercent|]. apply without_map; [|now apply Forall_rev]. intros x H. repeat apply without_app; try easy; nopercent.
  - apply without_join; [nopercent|]. apply without_map; [|easy]. intros x H. apply without_app; try easy; nopercent.
  - apply without_join; [nopercent|]. apply without_map; [|easy]. intros x H. repeat apply without_app; try easy; nopercent.
  - intros H. pose proof (dec_digits (N.of_nat (List.length values))) as D. rewrite Forall_forall in D. apply D in H. cbn in H. lia.
Qed.
Lemma text_filled : plain_arguments year argv name values namespaces output_file ->
  generate_file_text year argv TEMPLATE_TEXT name values namespaces output_file = fill (entry es) TEMPLATE_TEXT.
Proof.
  intros P. rewrite template_flat. change (generate_file_text year argv (flat template) name values namespaces output_file) with (replacements (flat template) es).
  destruct (fill_all (entry es) es (entries_good P) template template_good) as ([t l] & G & -> & S & H).
  pose proof template_good as TG. destruct template as [t0 l0] eqn:ET. rewrite fill_subst, <- S by easy.
  destruct l as [|x l]; [unfold flat, subst; easy|]. rewrite <- ET in H. vm_compute in H. discriminate H.
Qed.
End Text.

Section Sections.
Variables (year : str) (argv : list str) (name : str) (values namespaces : list str) (output_file : str).
Let es := entries year argv name values namespaces output_file.
Lemma entry_values : entry es (s "start_namespace") = start_namespace namespaces /\ entry es (s "end_namespace") = end_namespace namespaces /\
  entry es (s "enum_name") = name /\ entry es (s "values") = values_text values /\ entry es (s "quotes_values") = quotes_text values /\
  entry es (s "n_values") = n_values_text values.
Proof. repeat split; reflexivity. Qed.
Definition middle (l : list (str * str)) : str := flat_map (fun x => entry es (fst x) ++ snd x) l.
Lemma subst_parts t l1 l2 l3 : subst (entry es) (t, l1 ++ l2 ++ l3) = subst (entry es) (t, l1) ++ middle l2 ++ middle l3.
Proof. unfold subst, middle. cbn [fst snd]. now rewrite !flat_map_app, <- !app_assoc. Qed.
Lemma text_subst : plain_arguments year argv name values namespaces output_file ->
  generate_file_text year argv TEMPLATE_TEXT name values namespaces output_file = subst (entry es) template.
Proof. intros P. rewrite text_filled by easy. rewrite template_flat at 1. destruct template as [t l] eqn:E. rewrite fill_subst; [easy|]. rewrite <- E. apply template_good. Qed.
Definition before_enum : list (str * str) := Eval vm_compute in firstn 3 (snd template).
Definition enum_part : list (str * str) := Eval vm_compute in firstn 6 (skipn 3 (snd template)).
Definition after_enum : list (str * str) := Eval vm_compute in firstn 11 (skipn 9 (snd template)).
Definition last_part : list (str * str) := Eval vm_compute in skipn 20 (snd template).
Lemma template_parts : template = (fst template, before_enum ++ enum_part ++ after_enum ++ last_part).
Proof. vm_compute. reflexivity. Qed.
Definition quote_literal : str := Eval vm_compute in snd (last enum_part ([], [])).
Definition last_literal : str := Eval vm_compute in snd (hd ([], []) last_part).
Lemma middle_app a b : middle (a ++ b) = middle a ++ middle b.
Proof. unfold middle. apply flat_map_app. Qed.
Lemma enum_part_text : middle enum_part = start_namespace namespaces ++ [newline; newline] ++
    s "enum class " ++ name ++ [newline] ++ s "{" ++ [newline] ++ values_text values ++ [newline] ++ s "};" ++ [newline; newline] ++
    s "const std::array<std::string, " ++ n_values_text values ++ s "> NAMES_" ++ name ++ s " =" ++ [newline] ++ s "{" ++ [newline] ++ quotes_text values ++ quote_literal.
Proof.
  unfold middle, enum_part. cbn [flat_map fst snd]. rewrite !app_nil_r, <- !app_assoc. vm_compute. reflexivity.
Qed.
Lemma last_part_text : middle last_part = name ++ last_literal ++ name ++ s " = " ++ n_values_text values ++ s ";" ++ [newline; newline] ++
  end_namespace namespaces ++ [newline].
Proof. unfold middle, last_part. cbn [flat_map fst snd]. rewrite !app_nil_r, <- !app_assoc. vm_compute. reflexivity. Qed.
Lemma quote_cut : quote_literal = [newline] ++ s "};" ++ skipn 3 quote_literal.
Proof. vm_compute. reflexivity. Qed.
Lemma last_cut : last_literal = firstn (List.length last_literal - 38) last_literal ++ s "constexpr const unsigned int N_VALUES_".
Proof. vm_compute. reflexivity. Qed.
Lemma text_sections : plain_arguments year argv name values namespaces output_file -> exists before between,
  generate_file_text year argv TEMPLATE_TEXT name values namespaces output_file =
  before ++
  start_namespace namespaces ++ [newline; newline] ++
  s "enum class " ++ name ++ [newline] ++ s "{" ++ [newline] ++ values_text values ++ [newline] ++ s "};" ++ [newline; newline] ++
  s "const std::array<std::string, " ++ n_values_text values ++ s "> NAMES_" ++ name ++ s " =" ++ [newline] ++ s "{" ++ [newline] ++ quotes_text values ++ [newline] ++ s "};" ++
  between ++
  s "constexpr const unsigned int N_VALUES_" ++ name ++ s " = " ++ n_values_text values ++ s ";" ++ [newline; newline] ++
  end_namespace namespaces ++ [newline].
Proof.
  intros P. rewrite text_subst by easy. rewrite template_parts, subst_parts, middle_app, enum_part_text, last_part_text, quote_cut, last_cut.
  exists (subst (entry es) (fst template, before_enum)), (skipn 3 quote_literal ++ middle after_enum ++ name ++ firstn (List.length last_literal - 38) last_literal).
  generalize (subst (entry es) (fst template, before_enum)) (skipn 3 quote_literal) (middle after_enum) (firstn (List.length last_literal - 38) last_literal).
  intros. rewrite <- !app_assoc. reflexivity.
Qed.

(** braces *)
Definition total (c : ascii) (l : list str) : nat := list_sum (map (count c) l).
Lemma count_subst f c d : count c (subst f d) = count c (fst d) + total c (map snd (snd d)) + total c (map f (map fst (snd d))).
Proof.
  unfold subst, total. rewrite count_app. destruct d as [t l]. cbn [fst snd]. induction l as [|[m u] l IH]; cbn [flat_map map list_sum fold_right fst snd]; [cbn; lia|].
  rewrite !count_app. unfold list_sum in IH. lia.
Qed.
Lemma count_none c t : without c t -> count c t = 0.
Proof. intros H. apply count_zero_iff. exact H. Qed.
Lemma count_join c sep l : without c sep -> count c (py_join sep l) = total c l.
Proof.
  intros N. unfold total. induction l as [|x l IH]; [easy|]. cbn [py_join map list_sum fold_right]. rewrite count_app. unfold list_sum in IH. rewrite <- IH.
  destruct l; [easy|]. rewrite count_app, (count_none c sep N). lia.
Qed.
End Sections.

(** ** The meaning of the code *)
Definition plain (c : ascii) : bool := letter c || digit_character c.
Lemma identifier_plain x : identifier x = true -> x <> [] /\ Forall (fun c => plain c = true) x.
Proof.
  destruct x as [|c x]; [easy|]. cbn. intros H. apply andb_prop in H as [A B]. split; [easy|]. constructor.
  - unfold plain. now rewrite A.
  - apply Forall_forall. now apply forallb_forall.
Qed.
Lemma plain_not c d : plain c = true -> plain d = false -> c <> d.
Proof. congruence. Qed.
Lemma identifier_without x d : identifier x = true -> plain d = false -> without d x.
Proof. intros H D K. apply identifier_plain in H as [_ F]. rewrite Forall_forall in F. apply F in K. congruence. Qed.
Lemma plain_facts c : plain c = true -> blank_or_newline c = false /\ Ascii.eqb c """"%char = false /\ Ascii.eqb c "\"%char = false /\ Ascii.eqb c " "%char = false /\ is_space c = false.
Proof.
  destruct c as [[] [] [] [] [] [] [] []]; intros H; try discriminate H; repeat split; reflexivity.
Qed.
Lemma filter_identifier x : identifier x = true -> filter (fun c => negb (blank_or_newline c)) x = x.
Proof.
  intros H. apply identifier_plain in H as [_ F]. induction F as [|c x P F IH]; [easy|]. cbn. destruct (plain_facts c P) as (-> & _). cbn. now rewrite IH.
Qed.
Lemma filter_values vs : Forall (fun x => identifier x = true) vs -> filter (fun c => negb (blank_or_newline c)) (values_text vs) = py_join (s ",") vs.
Proof.
  unfold values_text. induction vs as [|x vs IH]; intros F; [easy|]. inversion F; subst. cbn [map py_join].
  rewrite !filter_app, (filter_identifier x) by easy. cbn [filter app]. change (filter _ (s "    ")) with (@nil ascii). cbn [app]. f_equal.
  destruct vs as [|y vs]; [easy|]. rewrite <- IH by easy. cbn [map]. rewrite !filter_app. reflexivity.
Qed.
Lemma enumerators_plain vs : Forall (fun x => identifier x = true) vs -> forall n, enumerators vs (N.of_nat n) = Some (combine vs (map N.of_nat (seq n (List.length vs)))).
Proof.
  induction vs as [|x vs IH]; intros F n; [easy|]. inversion F as [|? ? A B]; subst. cbn [enumerators].
  rewrite split_none by now apply identifier_without. rewrite A. replace (N.of_nat n + 1)%N with (N.of_nat (S n)) by lia. rewrite IH by easy. easy.
Qed.
Lemma read_values vs : Forall (fun x => identifier x = true) vs -> read_enumerators (values_text vs) = Some (combine vs (map N.of_nat (seq 0 (List.length vs)))).
Proof.
  intros F. unfold read_enumerators. rewrite filter_values by easy. rewrite py_join_join. destruct vs as [|x vs]; [easy|].
  change (s ",") with [","%char]. rewrite split_join; [|easy|].
  - exact (enumerators_plain _ F 0).
  - revert F. apply Forall_impl. intros y H. now apply identifier_without.
Qed.
Lemma read_inside v : Forall (fun c => plain c = true) v -> forall x u, read_literals (Some x) (v ++ """"%char :: u) = option_map (cons (rev x ++ v)) (read_literals None u).
Proof.
  induction 1 as [|c v P F IH]; intros x u; cbn [app read_literals].
  - rewrite Ascii.eqb_refl, app_nil_r. easy.
  - destruct (plain_facts c P) as (_ & -> & -> & _). rewrite IH. cbn [rev]. now rewrite <- app_assoc.
Qed.
Lemma read_one v u : Forall (fun c => plain c = true) v -> read_literals None (s "    """ ++ v ++ s """" ++ u) = option_map (cons v) (read_literals None u).
Proof. intros F. change (read_literals (Some []) (v ++ """"%char :: u) = option_map (cons v) (read_literals None u)). now rewrite read_inside. Qed.
Lemma read_quotes vs : Forall (fun x => identifier x = true) vs -> read_literals None (quotes_text vs) = Some vs.
Proof.
  unfold quotes_text. induction vs as [|x vs IH]; intros F; [easy|]. inversion F as [|? ? A B]; subst. cbn [map py_join].
  rewrite <- !app_assoc. apply identifier_plain in A as [_ A]. rewrite read_one by easy.
  destruct vs as [|y vs]; [easy|]. specialize (IH B). cbn [map] in *.
  match goal with |- option_map _ (read_literals None ?t) = _ => match t with _ ++ _ ++ ?r => change (read_literals None t) with (read_literals None r) end end.
  now rewrite IH.
Qed.
Lemma from_string_at l : NoDup l -> forall n i x, nth_error l i = Some x -> from_string_loop l n x = Ret (n + N.of_nat i)%N.
Proof.
  induction 1 as [|y l N D IH]; intros n i x H; [now destruct i|]. destruct i as [|i]; cbn in *.
  - injection H as ->. rewrite str_eqb_refl. f_equal. lia.
  - destruct (str_eqb y x) eqn:E; [apply str_eqb_eq in E as ->; destruct N; now apply nth_error_In in H|].
    rewrite (IH (n + 1)%N i x H). f_equal. lia.
Qed.
Lemma from_string_none l : forall n x, ~ In x l -> from_string_loop l n x = Throw InvalidArgument.
Proof.
  induction l as [|y l IH]; intros n x H; [easy|]. cbn. destruct (str_eqb y x) eqn:E; [apply str_eqb_eq in E; destruct H; now left|].
  apply IH. intros K. apply H. now right.
Qed.
Lemma code_stands_for vs : Forall (fun x => identifier x = true) vs -> NoDup vs -> exists e, read_code vs = Some e /\ stands_for vs e.
Proof.
  intros F D. unfold read_code. rewrite read_values, read_quotes by easy. rewrite Nat.eqb_refl. eexists. split; [reflexivity|].
  unfold stands_for, to_string, from_string, n_values, string_vector. cbn. repeat split; try easy.
  - rewrite Nat2N.id. now rewrite H.
  - rewrite (from_string_at vs D 0%N i x H). f_equal.
  - intros x H. now apply from_string_none.
Qed.
Lemma unblank_identifier x : identifier x = true -> unblank x = x.
Proof.
  intros H. apply identifier_plain in H as [_ F]. unfold unblank. induction F as [|c x P F IH]; [easy|]. cbn. destruct (plain_facts c P) as (_ & _ & _ & -> & _). cbn. now rewrite IH.
Qed.
Lemma identifier_blanks x : identifier x = true -> only_blanks x.
Proof. intros H c I S. apply identifier_plain in H as [_ F]. rewrite Forall_forall in F. apply F in I. destruct (plain_facts c I) as (_ & _ & _ & _ & E). congruence. Qed.
Lemma parse_identifiers sep l : sep = s ";" \/ sep = s "," -> l <> [] -> Forall (fun x => identifier x = true) l -> parse_values (join sep l) = l.
Proof.
  intros S N F.
  assert (A : Forall (without ";"%char) l) by (revert F; apply Forall_impl; intros; now apply identifier_without).
  assert (B : Forall (without ","%char) l) by (revert F; apply Forall_impl; intros; now apply identifier_without).
  assert (C : Forall only_blanks l) by (revert F; apply Forall_impl; intros; now apply identifier_blanks).
  assert (E : map unblank l = l).
  { rewrite <- (map_id l) at 2. apply map_ext_Forall. revert F. apply Forall_impl. exact unblank_identifier. }
  destruct S as [-> | ->].
  - destruct l as [|x [|y l]]; [easy| |].
    + change (join (s ";") [x]) with (join (s ",") [x]). rewrite values_comma; easy.
    + rewrite values_semicolon; try easy. cbn. lia.
  - rewrite values_comma; easy.
Qed.
Lemma meaning sep l : sep = s ";" \/ sep = s "," -> l <> [] -> Forall (fun x => identifier x = true) l -> NoDup l ->
  exists e, read_code (parse_values (join sep l)) = Some e /\ stands_for l e.
Proof. intros S N F D. rewrite parse_identifiers by easy. now apply code_stands_for. Qed.

(** ** The comment *)
Lemma contains_cons p c t : contains (c :: t) p -> (exists v, c :: t = p ++ v) \/ contains t p.
Proof. intros (u & v & E). destruct u as [|x u]; [left; now exists v|]. right. injection E as <- ->. now exists u, v. Qed.
Lemma contains_between c a b : c <> "*"%char -> c <> "/"%char -> contains (a ++ c :: b) closing -> contains a closing \/ contains b closing.
Proof.
  intros A B. induction a as [|x a IH]; intros H; cbn [app] in H; apply contains_cons in H as [(v & E)|H].
  - injection E as -> _. easy.
  - now right.
  - destruct a as [|y a]; [injection E as _ -> _; easy|]. left. cbn in E. injection E as -> -> _. exists [], a. easy.
  - destruct (IH H) as [K|K]; [left|now right]. destruct K as (u & v & ->). exists (x :: u), v. easy.
Qed.
Lemma contains_skip a t : without "*"%char a -> contains (a ++ t) closing -> contains t closing.
Proof.
  induction a as [|x a IH]; intros N H; [easy|]. cbn [app] in H. apply contains_cons in H as [(v & E)|H].
  - injection E as -> _. destruct N. now left.
  - apply IH; [|easy]. intros K. apply N. now right.
Qed.
Lemma no_slash_no_closing t : without "/"%char t -> ~ contains t closing.
Proof. intros N (u & v & ->). apply N. apply in_or_app. right. apply in_or_app. left. right. now left. Qed.
Lemma closing_join l : contains (py_join (newline :: s " *   ") l) closing -> exists x, In x l /\ contains x closing.
Proof.
  induction l as [|x l IH]; intros H; cbn [py_join] in H.
  - destruct H as (u & v & E). now destruct u.
  - destruct l as [|y l].
    + rewrite app_nil_r in H. exists x. split; [now left|easy].
    + cbn [app] in H. apply contains_between in H as [H|H]; try easy; [exists x; split; [now left|easy]|].
      change (s " *   ") with (s " *  " ++ [" "%char]) in H. rewrite <- app_assoc in H. cbn [app] in H.
      apply contains_between in H as [H|H]; try easy.
      * exfalso. revert H. apply no_slash_no_closing. nopercent.
      * destruct (IH H) as (z & K & L). exists z. split; [now right|easy].
Qed.
Definition flagged (argv : list str) : Prop := exists a, In a argv /\ In "-"%char a /\ contains a closing.
Lemma arguments_closing argv : forall l x, In x (fold_left add_argument argv l) -> contains x closing -> (exists y, In y l /\ contains y closing) \/ flagged argv.
Proof.
  induction argv as [|a argv IH]; intros l x H K; [left; now exists x|]. cbn in H.
  destruct (IH _ x H K) as [(y & A & B)|(b & A & B & C)]; [|right; exists b; split; [now right|easy]].
  unfold add_argument in A. destruct (py_in "-"%char a) eqn:E; apply in_app_or in A as [A|[<-|[]]].
  - left. now exists y.
  - right. exists a. split; [now left|]. split; [now apply py_in_iff|easy].
  - left. exists y. split; [|easy]. clear -A. induction l as [|z [|w l] IH]; cbn in *; [easy|easy|]. destruct A as [->|A]; [now left|right; now apply IH].
  - change (s " ") with [" "%char] in B. cbn [app] in B. apply contains_between in B as [B|B]; try easy.
    + left. exists (last l []). split; [|easy]. destruct l as [|z l]; [now destruct B as (u & v & F); destruct u|]. now apply last_in.
    + exfalso. revert B. apply no_slash_no_closing, file_name_no_slash.
Qed.
Lemma command_closing argv : contains (get_command_executed argv) closing -> flagged argv.
Proof.
  unfold get_command_executed. intros H. apply contains_skip in H; [|nopercent].
  apply closing_join in H as (x & A & B). destruct (arguments_closing _ _ _ A B) as [(y & [<-|[]] & K)|K]; [|easy].
  destruct K as (u & v & E). now destruct u.
Qed.
Lemma output_closing path : ~ contains (get_file_name_from_path path) closing.
Proof. apply no_slash_no_closing, file_name_no_slash. Qed.

(** ** Braces *)
Lemma without_command c argv : without c script -> without c (newline :: s " *   ") -> Forall (without c) argv -> without c (get_command_executed argv).
Proof.
  intros A B F. unfold get_command_executed. apply without_app; [easy|]. apply without_join; [easy|].
  apply arguments_without; [intros [H|[]]; apply B; right; now left|easy|]. constructor; [easy|constructor].
Qed.
Lemma total_zero c l : Forall (without c) l -> total c l = 0.
Proof. unfold total. induction 1 as [|x l A F IH]; [easy|]. cbn. rewrite (count_none c x A). exact IH. Qed.
Lemma total_ones c (g : str -> str) l : Forall (fun x => count c (g x) = 1) l -> total c (map g l) = List.length l.
Proof. unfold total. induction 1 as [|x l A F IH]; [easy|]. cbn. rewrite A. unfold list_sum in IH. now rewrite IH. Qed.
Section Braces.
Variables (year : str) (argv : list str) (name : str) (values namespaces : list str) (output_file : str).
Let es := entries year argv name values namespaces output_file.
Lemma holes_total c : without c script -> without c (newline :: s " *   ,""") -> (forall d, In d (s "0123456789") -> c <> d) ->
  without c year -> without c name -> without c output_file -> Forall (without c) argv -> Forall (without c) values ->
  total c (map (entry es) (map fst (snd template))) = count c (start_namespace namespaces) + count c (end_namespace namespaces).
Proof.
  intros A B D Y N O G V.
  assert (Z : forall n, In n [s "year"; s "output_file"; s "command"; s "enum_name"; s "values"; s "quotes_values"; s "n_values"] -> count c (entry es n) = 0).
  { intros n H. apply count_none. repeat (destruct H as [<-|H]); [exact Y| | |exact N| | | |destruct H].
    - change (without c (get_file_name_from_path output_file)). now apply without_file_name.
    - change (without c (get_command_executed argv)). apply without_command; try easy. intros K. apply B. repeat (destruct K as [<-|K]; [cbn; tauto|]). destruct K.
    - change (without c (values_text values)). apply without_join; [intros K; apply B; repeat (destruct K as [<-|K]; [cbn; tauto|]); destruct K|].
      apply without_map; [|easy]. intros x X. apply without_app; [|easy]. intros K. apply B. repeat (destruct K as [<-|K]; [cbn; tauto|]). destruct K.
    - change (without c (quotes_text values)). apply without_join; [intros K; apply B; repeat (destruct K as [<-|K]; [cbn; tauto|]); destruct K|].
      apply without_map; [|easy]. intros x X. apply without_app; [|apply without_app; [easy|]]; intros K; apply B; repeat (destruct K as [<-|K]; [cbn; tauto|]); destruct K.
    - change (without c (n_values_text values)). intros H. pose proof (dec_digits (N.of_nat (List.length values))) as F. rewrite Forall_forall in F. apply F in H.
      apply (D c); [|easy]. clear -H. destruct c as [[] [] [] [] [] [] [] []]; cbn in H; try lia; cbn; tauto. }
  change (map fst (snd template)) with
    [s "year"; s "output_file"; s "command"; s "start_namespace"; s "enum_name"; s "values"; s "n_values"; s "enum_name"; s "quotes_values"; s "enum_name"; s "enum_name";
     s "enum_name"; s "enum_name"; s "enum_name"; s "enum_name"; s "enum_name"; s "n_values"; s "enum_name"; s "enum_name"; s "enum_name"; s "enum_name"; s "enum_name"; s "n_values"; s "end_namespace"].
  unfold total. cbn [map list_sum fold_right].
  rewrite !(Z (s "year")), !(Z (s "output_file")), !(Z (s "command")), !(Z (s "enum_name")), !(Z (s "values")), !(Z (s "quotes_values")), !(Z (s "n_values")) by (cbn [In]; tauto).
  change (entry es (s "start_namespace")) with (start_namespace namespaces). change (entry es (s "end_namespace")) with (end_namespace namespaces). lia.
Qed.
Lemma text_braces : plain_arguments year argv name values namespaces output_file -> no_braces (year :: name :: output_file :: argv ++ values ++ namespaces) ->
  count "{"%char (generate_file_text year argv TEMPLATE_TEXT name values namespaces output_file) =
  count "}"%char (generate_file_text year argv TEMPLATE_TEXT name values namespaces output_file).
Proof.
  intros P B. rewrite text_subst by easy. rewrite !count_subst.
  unfold no_braces in B. inversion B as [|? ? [Y Y'] G1]; subst. inversion G1 as [|? ? [N N'] G2]; subst. inversion G2 as [|? ? [O O'] G3]; subst.
  apply Forall_app in G3 as [A G4]. apply Forall_app in G4 as [V W].
  assert (S1 : forall l, Forall (fun t => without "{"%char t /\ without "}"%char t) l -> Forall (without "{"%char) l) by (intros l; apply Forall_impl; tauto).
  assert (S2 : forall l, Forall (fun t => without "{"%char t /\ without "}"%char t) l -> Forall (without "}"%char) l) by (intros l; apply Forall_impl; tauto).
  change (entry (entries year argv name values namespaces output_file)) with (entry es).
  rewrite !holes_total; auto; try nopercent.
  2: { intros d H E. subst d. cbn in H. repeat (destruct H as [H|H]; [discriminate H|]). exact H. }
  2: { intros d H E. subst d. cbn in H. repeat (destruct H as [H|H]; [discriminate H|]). exact H. }
  change (count "{"%char (fst template)) with 0. change (count "}"%char (fst template)) with 0.
  replace (total "{"%char (map snd (snd template))) with 8 by (vm_compute; reflexivity).
  replace (total "}"%char (map snd (snd template))) with 8 by (vm_compute; reflexivity).
  unfold start_namespace, end_namespace. rewrite !count_join by nopercent.
  rewrite (total_ones "{"%char), (total_ones "}"%char (fun x => s "} /* namespace " ++ x ++ s " */")).
  - rewrite rev_length, (total_zero "{"%char), (total_zero "}"%char); [lia| |].
    + apply without_map; [|now apply S2]. intros x X. apply without_app; [nopercent|]. apply without_app; [easy|nopercent].
    + apply without_map; [|apply Forall_rev; now apply S1]. intros x X. apply without_app; [nopercent|]. apply without_app; [easy|nopercent].
  - apply Forall_rev. apply S2 in W. revert W. apply Forall_impl. intros x X. rewrite !count_app, (count_none _ x X). reflexivity.
  - apply S1 in W. revert W. apply Forall_impl. intros x X. rewrite !count_app, (count_none _ x X). reflexivity.
Qed.
End Braces.
