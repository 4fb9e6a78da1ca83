(** Proofs of C155. *)
From Verif Require Import Str_proofs Cmake_model Cmake_spec Cmake_proofs CmakeSrc_model CmakeSrc_spec.

Lemma ends_iff e name : ends e name = true <-> exists stem, name = stem ++ e.
Proof.
  unfold ends. rewrite prefixb_iff. split.
  - intros (v & H). exists (rev v). rewrite <- (rev_involutive name), H, rev_app_distr, rev_involutive. reflexivity.
  - intros (stem & ->). exists (rev stem). apply rev_app_distr.
Qed.
Lemma ending_one e name : ending_in [e] [name] <-> ends e name = true.
Proof.
  rewrite ends_iff. split.
  - intros (dirs & stem & x & [<-|[]] & H). destruct dirs as [|d dirs]; [injection H as ->; eauto|]. destruct dirs; discriminate.
  - intros (stem & ->). exists [], stem, e. split; [left; reflexivity|reflexivity].
Qed.
Lemma ending_more es name p : p <> [] -> (ending_in es (name :: p) <-> ending_in es p).
Proof.
  intro N. split.
  - intros (dirs & stem & e & I & H). destruct dirs as [|d dirs]; [injection H as _ H; contradiction|]. injection H as _ ->. exists dirs, stem, e. auto.
  - intros (dirs & stem & e & I & ->). exists (name :: dirs), stem, e. auto.
Qed.
Lemma file_path n p : file_at n p -> p <> [].
Proof. intro H. destruct H; discriminate. Qed.

Section Node.
Variable P : node -> Prop.
Hypothesis Hf : P File.
Hypothesis Hd : forall l, (forall name n, In (name, n) l -> P n) -> P (Dir l).
Fixpoint node_ind' (n : node) : P n :=
  match n with
  | File => Hf
  | Dir l => Hd l ((fix go (l : list (str * node)) : forall name n, In (name, n) l -> P n :=
      match l with
      | [] => fun _ _ H => match H with end
      | (a, x) :: l' => fun name n H => match H with or_introl E => eq_ind x P (node_ind' x) n (f_equal snd E) | or_intror H => go l' name n H end
      end) l)
  end.
End Node.

Lemma recurse_iff e : forall n p, In p (recurse e n) <-> file_at n p /\ ending_in [e] p.
Proof.
  intro n. induction n as [|l IH] using node_ind'; intro p.
  - split; [intros []|intros [H _]; inversion H].
  - cbn [recurse]. rewrite in_flat_map. split.
    + intros ((name & n) & I & H). cbn [fst snd] in H. destruct n as [|k].
      * destruct (ends e name) eqn:En; [|destruct H]. destruct H as [<-|[]]. split; [constructor; exact I|apply ending_one; exact En].
      * apply in_map_iff in H as (q & <- & Hq). apply (IH name (Dir k) I) in Hq as [H1 H2]. split; [econstructor; [exact I|exact H1]|]. apply ending_more; [exact (file_path _ _ H1)|exact H2].
    + intros [H E]. inversion H as [l' name I|l' name n q I Hq]; subst.
      * exists (name, File). split; [exact I|]. cbn [fst snd]. apply ending_one in E. rewrite E. left. reflexivity.
      * exists (name, n). split; [exact I|]. cbn [fst snd]. destruct n as [|k]; [inversion Hq|]. apply in_map. apply (IH name (Dir k) I). split; [exact Hq|]. exact (proj1 (ending_more [e] name q (file_path _ _ Hq)) E).
Qed.
Lemma process_one e n p : In p (process 1 e n) <-> exists name q, p = name :: q /\ q <> [] /\ file_at n p /\ ending_in [e] p.
Proof.
  destruct n as [|l]; [split; [intros []|intros (name & q & _ & _ & H & _); inversion H]|]. cbn [process]. rewrite in_flat_map. split.
  - intros ((name & n) & I & H). cbn [fst snd] in H. destruct n as [|k]; [destruct H|]. apply in_map_iff in H as (q & <- & Hq). apply recurse_iff in Hq as [H1 H2]. pose proof (file_path _ _ H1) as Nq.
    exists name, q. split; [reflexivity|]. split; [exact Nq|]. split; [econstructor; [exact I|exact H1]|apply ending_more; assumption].
  - intros (name & q & -> & Nq & H & E). inversion H as [l' name' I|l' name' n q' I Hq]; subst; [contradiction|]. exists (name, n). split; [exact I|]. cbn [fst snd]. destruct n as [|k]; [inversion Hq|]. apply in_map. apply recurse_iff.
    split; [exact Hq|]. exact (proj1 (ending_more [e] name q Nq) E).
Qed.
Lemma ending_any es p : ending_in es p <-> exists e, In e es /\ ending_in [e] p.
Proof.
  split; [intros (dirs & stem & e & I & ->); exists e; split; [exact I|]; exists dirs, stem, e; split; [left; reflexivity|reflexivity]|].
  intros (e & I & dirs & stem & x & [<-|[]] & ->). exists dirs, stem, e. auto.
Qed.
Lemma glob_iff ps path : In path (glob ps) <-> exists d stars e p, In (d, stars, e) ps /\ path = fst d :: p /\ In p (process stars e (snd d)).
Proof.
  unfold glob. rewrite nodup_In, in_flat_map. split.
  - intros (((d & stars) & e) & I & H). apply in_map_iff in H as (p & <- & Hp). exists d, stars, e, p. auto.
  - intros (d & stars & e & p & I & -> & Hp). exists (d, stars, e). split; [exact I|]. apply in_map. exact Hp.
Qed.
Lemma code_iff d path : In path (glob (code d)) <-> all_files d code_endings path.
Proof.
  rewrite glob_iff. split.
  - intros (d' & stars & e & p & I & -> & Hp). assert (X : d' = d /\ (stars = 0 \/ stars = 1) /\ In e code_endings).
    { unfold code in I. repeat (destruct I as [I|I]; [injection I as <- <- <-; cbn; auto 8|]). destruct I. }
    destruct X as (-> & St & Ie). assert (Y : file_at (snd d) p /\ ending_in [e] p).
    { destruct St as [-> | ->]; [exact (proj1 (recurse_iff e _ p) Hp)|]. apply process_one in Hp as (name & q & _ & _ & H). exact H. }
    exists p. split; [reflexivity|]. split; [apply Y|]. apply ending_any. exists e. split; [exact Ie|apply Y].
  - intros (p & -> & Hf & E). apply ending_any in E as (e & Ie & E). exists d, 0, e, p. split; [|split; [reflexivity|apply recurse_iff; auto]]. unfold code. destruct Ie as [<-|[<-|[<-|[]]]]; cbn; auto.
Qed.
(** patterns with two asterisks *)
Lemma deep_iff d es path : In path (glob (map (fun e => (d, 1, e)) es)) <-> deep_files d es path.
Proof.
  rewrite glob_iff. split.
  - intros (d' & stars & e & p & I & -> & Hp). apply in_map_iff in I as (x & E & Ie). injection E as -> <- ->. apply process_one in Hp as (name & q & -> & Nq & Hf & E). exists name, q. repeat split; auto. apply ending_any. eauto.
  - intros (name & q & -> & Nq & Hf & E). apply ending_any in E as (e & Ie & E). exists d, 1, e, (name :: q). split; [apply in_map_iff; eauto|]. split; [reflexivity|]. apply process_one. exists name, q. auto.
Qed.
Lemma glob_app a b path : In path (glob (a ++ b)) <-> In path (glob a) \/ In path (glob b).
Proof.
  rewrite !glob_iff. split.
  - intros (d & stars & e & p & I & H). apply in_app_or in I as [I|I]; [left|right]; exists d, stars, e, p; auto.
  - intros [(d & stars & e & p & I & H)|(d & stars & e & p & I & H)]; exists d, stars, e, p; (split; [apply in_or_app; auto|exact H]).
Qed.

Lemma no_argv n calls : no_argument n calls -> argv n calls = [].
Proof. intro F. induction F as [|args calls L F IH]; [reflexivity|]. cbn. rewrite (proj2 (nth_error_None args n) L). exact IH. Qed.
Lemma no_more n m calls : no_argument n calls -> n <= m -> no_argument m calls.
Proof. intros F L. eapply Forall_impl; [|exact F]. cbn. intros a H. lia. Qed.
Lemma found_in l x : In x (map Found l) <-> exists p, x = Found p /\ In p l.
Proof. rewrite in_map_iff. split; intros (p & H1 & H2); exists p; auto. Qed.
Lemma found_nodup l : NoDup l -> NoDup (map Found l).
Proof. intro N. induction N as [|x l I N IH]; [constructor|]. cbn. constructor; [|exact IH]. intro H. apply in_map_iff in H as (y & E & Iy). injection E as ->. contradiction. Qed.
Lemma given_nil : given [] = [].
Proof. reflexivity. Qed.

Lemma library_lemma : forall calls src include, no_argument 2 calls -> NoDup (library false [] calls src include) /\ forall x, In x (library false [] calls src include) <-> exists p, x = Found p /\ all_files src code_endings p.
Proof.
  intros calls src include N. unfold library. rewrite (no_argv _ _ N). change (str_eqb [] []) with true. cbv iota. rewrite given_nil, app_nil_r. split; [apply found_nodup, NoDup_nodup|].
  intro x. rewrite found_in. split; intros (p & -> & H); exists p; (split; [reflexivity|]); apply code_iff; exact H.
Qed.
Lemma tool_lemma : forall calls src, no_argument 1 calls -> NoDup (tool calls src) /\ forall x, In x (tool calls src) <-> exists p, x = Found p /\ all_files src code_endings p.
Proof.
  intros calls src N. unfold tool. rewrite (no_argv _ _ N). change (str_eqb [] []) with true. cbv iota. split; [apply found_nodup, NoDup_nodup|].
  intro x. rewrite found_in. split; intros (p & -> & H); exists p; (split; [reflexivity|]); apply code_iff; exact H.
Qed.
Lemma given_join names : Forall plain names -> given (join names) = map Given names.
Proof. intro F. unfold given. rewrite join_arguments by exact F. reflexivity. Qed.
Lemma join_some names : Forall plain names -> names <> [] -> str_eqb (join names) [] = false.
Proof. intros F N. apply str_eqb_neq. intro E. apply N. apply join_nil; assumption. Qed.
Lemma given_lemma : forall names a b calls src include, Forall plain names -> names <> [] ->
  library false [] ([a; b; join names] :: calls) src include = map Given names /\ tool ([a; join names] :: calls) src = map Given names.
Proof.
  intros names a b calls src include F N. split.
  - unfold library. cbn [argv nth_error]. rewrite (join_some _ F N), given_nil, app_nil_r. apply given_join. exact F.
  - unfold tool. cbn [argv nth_error]. rewrite (join_some _ F N). apply given_join. exact F.
Qed.
(** the header files of a project for Visual Studio *)
Lemma headers_lemma : forall calls src include, no_argument 2 calls -> forall p, In (Found p) (library true [] calls src include) <->
  all_files src code_endings p \/ deep_files include header_endings p \/ deep_files src header_endings p.
Proof.
  intros calls src include N p. unfold library. rewrite (no_argv 2 _ N), (no_argv 3 calls) by (eapply no_more; [exact N|lia]). change (str_eqb [] []) with true. cbv iota. rewrite in_app_iff, !found_in.
  assert (H : forall d q, In q (glob (headers d)) <-> deep_files d header_endings q) by (intros d q; exact (deep_iff d header_endings q)).
  split.
  - intros [(q & E & I)|(q & E & I)]; injection E as <-; [left; apply code_iff; exact I|right]. apply glob_app in I as [I|I]; [left|right]; apply H; exact I.
  - intros [I|I]; [left; exists p; split; [reflexivity|apply code_iff; exact I]|right]. exists p. split; [reflexivity|]. apply glob_app. destruct I as [I|I]; [left|right]; apply H; exact I.
Qed.
Lemma tests_lemma : forall names calls src test, Forall plain names -> no_argument 1 calls -> forall x, In x (test_sources ([join names] :: calls) src test) <->
  (exists n, x = Given n /\ In n names) \/ exists p, x = Found p /\ (deep_files src (code_endings ++ [s ".h"; s ".hpp"; s ".hxx"]) p \/ all_files test [s ".cpp"] p).
Proof.
  intros names calls src test F N x. unfold test_sources. cbn [argv nth_error]. rewrite (no_argv _ _ N). change (str_eqb [] []) with true. cbv iota. rewrite given_join by exact F. rewrite in_app_iff, found_in, in_map_iff.
  assert (T : forall q, In q (glob (tested src test)) <-> deep_files src (code_endings ++ [s ".h"; s ".hpp"; s ".hxx"]) q \/ all_files test [s ".cpp"] q).
  { intro q. change (tested src test) with (map (fun e => (src, 1, e)) (code_endings ++ [s ".h"; s ".hpp"; s ".hxx"]) ++ [(test, 1, s ".cpp"); (test, 0, s ".cpp")]). rewrite glob_app, deep_iff.
    assert (X : In q (glob [(test, 1, s ".cpp"); (test, 0, s ".cpp")]) <-> all_files test [s ".cpp"] q); [|rewrite X; reflexivity].
    rewrite glob_iff. split.
    - intros (d & stars & e & p & I & -> & Hp). destruct I as [I|[I|[]]]; injection I as <- <- <-.
      + apply process_one in Hp as (name & r & _ & _ & H1 & H2). exists p. auto.
      + apply (proj1 (recurse_iff _ _ _)) in Hp as [H1 H2]. exists p. auto.
    - intros (p & -> & H1 & H2). exists test, 0, (s ".cpp"), p. split; [right; left; reflexivity|]. split; [reflexivity|]. apply recurse_iff. auto. }
  split.
  - intros [(n & <- & I)|(p & -> & I)]; [left; exists n; auto|right; exists p; split; [reflexivity|apply T; exact I]].
  - intros [(n & -> & I)|(p & -> & I)]; [left; exists n; auto|right; exists p; split; [reflexivity|apply T; exact I]].
Qed.
Lemma includes_lemma : forall others module dirs a b calls, Forall plain dirs -> dirs <> [] -> tool_includes others module module ([a; b; join dirs] :: calls) = Some [(module, dirs)].
Proof.
  intros others module dirs a b calls F N. unfold tool_includes. cbn [argv nth_error]. rewrite (join_some _ F N), join_arguments by exact F. cbn [existsb]. rewrite str_eqb_refl. reflexivity.
Qed.
