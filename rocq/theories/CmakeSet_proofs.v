From Verif Require Import Cmake_model CmakeOpt_model CmakeSet_model CmakeSet_spec Str_proofs.
From Coq Require Import Lia.

Lemma value_text v x t y : value (set_text v x t) y = if str_eqb y x then Some t else value v y.
Proof. unfold value, set_text, update. cbn [normal cached]. destruct (str_eqb y x); reflexivity. Qed.
Lemma value_from_other v x y z : z <> x -> value (set_from v x y) z = value v z.
Proof.
  intro N. apply str_eqb_neq in N. unfold set_from. destruct (arguments _); [|rewrite value_text, N; reflexivity]. unfold value, update. cbn [normal cached]. rewrite N. reflexivity.
Qed.
Lemma setting_other x r v y : y <> x -> value (setting x r v) y = value v y.
Proof.
  intro N. unfold setting. destruct (truthy v x); [reflexivity|]. destruct r; [apply value_from_other; exact N|]. rewrite value_text. apply str_eqb_neq in N. rewrite N. reflexivity.
Qed.
Lemma setting_kept x r v y w : value v y = Some w -> is_off w = false -> value (setting x r v) y = Some w.
Proof.
  intros E F. destruct (str_eqb y x) eqn:N; [|apply str_eqb_neq in N; rewrite setting_other; assumption]. apply str_eqb_eq in N. subst. unfold setting, truthy. rewrite E, F. cbn [negb]. exact E.
Qed.
Lemma plain_arguments t : plain t -> arguments t = [t].
Proof.
  intros [N P]. unfold arguments, elements. destruct (existsb (Ascii.eqb ";"%char) t) eqn:E.
  - apply existsb_exists in E as (c & I & E). apply Ascii.eqb_eq in E. subst. contradiction.
  - cbn. destruct t; [congruence|reflexivity].
Qed.
Lemma setting_copy x y v t : value v x = None -> value v y = Some t -> plain t -> value (setting x (Copy y) v) x = Some t.
Proof.
  intros E F P. unfold setting, truthy. rewrite E. unfold set_from, expand. rewrite F, (plain_arguments t P). rewrite value_text, str_eqb_refl. reflexivity.
Qed.

(** letters *)
Lemma letters c : (capital c (upper c)) \/ (upper c = c /\ ~ In c (s "abcdefghijklmnopqrstuvwxyz")).
Proof.
  destruct (in_dec ascii_dec c (s "abcdefghijklmnopqrstuvwxyz")) as [I|N].
  - left. apply In_nth_error in I as [i E]. exists i. split; [exact E|]. do 26 (destruct i as [|i]; [injection E as <-; reflexivity|]). destruct i; discriminate.
  - right. split; [|exact N]. destruct c as [b0 b1 b2 b3 b4 b5 b6 b7]. destruct b0, b1, b2, b3, b4, b5, b6, b7; first [reflexivity|exfalso; apply N; vm_compute; tauto].
Qed.
Lemma capital_upper c d : capital c d -> d = upper c.
Proof. intros (i & E & F). do 26 (destruct i as [|i]; [injection E as <-; injection F as <-; reflexivity|]). destruct i; discriminate. Qed.
Lemma upper_same c : ~ In c (s "abcdefghijklmnopqrstuvwxyz") -> upper c = c.
Proof. intro N. destruct (letters c) as [(i & E & _)|[E _]]; [|exact E]. exfalso. apply N. eapply nth_error_In. exact E. Qed.
Lemma uppercase_upper t : uppercase_of t (map upper t).
Proof. induction t as [|c t IH]; constructor; [|exact IH]. destruct (letters c) as [C|[E N]]; [left; exact C|right; auto]. Qed.
Lemma uppercase_unique t u : uppercase_of t u -> u = map upper t.
Proof. intro H. induction H as [|c d t u [C|[<- N]] H IH]; [reflexivity| |]; cbn [map]; f_equal; [apply capital_upper; exact C|exact IH|symmetry; apply upper_same; exact N|exact IH]. Qed.
Lemma upper_plain t : plain (map upper t) -> plain t.
Proof.
  intros [N P]. split; [intros ->; apply N; reflexivity|]. intro I. apply P. change ";"%char with (upper ";"%char). apply in_map. exact I.
Qed.
Lemma off_lemma t : is_off t = true -> false_text t.
Proof.
  unfold is_off. destruct t as [|c t0]; [left; reflexivity|]. remember (c :: t0) as t eqn:Et. intro H. apply Bool.orb_true_iff in H as [H|H].
  - right. left. unfold one_of in H. apply existsb_exists in H as (w & I & E). apply str_eqb_eq in E. exists w, (map upper t). auto using uppercase_upper.
  - right. right. apply prefixb_iff in H as [r E]. exists (rev r). rewrite <- (rev_involutive t), E, rev_app_distr, rev_involutive. reflexivity.
Qed.
Lemma not_off t : ~ false_text t -> is_off t = false.
Proof. intro N. destruct (is_off t) eqn:E; [|reflexivity]. exfalso. apply N. apply off_lemma. exact E. Qed.

(** the file *)
Lemma execute_other file v x : (forall u, ~ In (x, u) file) -> value (execute file v) x = value v x.
Proof.
  revert v. induction file as [|[y t] file IH]; intros v N; [reflexivity|]. cbn [execute fold_left fst snd]. fold (execute file (set_text v y t)). rewrite IH; [|intros u I; apply (N u); right; exact I].
  rewrite value_text. destruct (str_eqb x y) eqn:E; [|reflexivity]. apply str_eqb_eq in E. subst. exfalso. apply (N t). left. reflexivity.
Qed.
Lemma execute_app a b v : execute (a ++ b) v = execute b (execute a v).
Proof. apply fold_left_app. Qed.
Lemma execute_says file v x t : says file x t -> value (execute file v) x = Some t.
Proof.
  intros (a & b & -> & N). rewrite execute_app. cbn [execute fold_left fst snd]. fold (execute b (set_text (execute a v) x t)). rewrite execute_other by exact N. rewrite value_text, str_eqb_refl. reflexivity.
Qed.
Definition documented_name (x : str) : Prop := In x [s "MODULE_SUMMARY"; s "MODULE_NAME_LARGE"; s "MODULE_HEADERS_PATH"; s "MODULE_DESCRIPTION"; s "MODULE_MACRO"; s "MODULE_HEADERS_INSTALL_PATH"].
Ltac dis I := let E := fresh in intro E; rewrite E in I; unfold documented_name in I; cbn [In] in I; repeat (destruct I as [I|I]; [discriminate I|]); exact I.
Lemma chosen_other dir args v x : x <> s "VARIADIC_ARGS" -> x <> s "VARIADIC_ARGS_LENGTH" -> x <> s "PROJECT_SETTINGS_FILE" -> value (chosen dir args v) x = value v x.
Proof.
  intros A B C. apply str_eqb_neq in A, B, C. unfold chosen. cbv zeta. rewrite !value_text, B, C. destruct args; [|rewrite value_text, A; reflexivity]. unfold value, update. cbn [normal cached]. rewrite A. reflexivity.
Qed.

Lemma some_inj {A} (a b : A) : Some a = Some b -> a = b.
Proof. congruence. Qed.
Lemma macro_kept v v' y w : macro v = Some v' -> value v y = Some w -> is_off w = false -> value v' y = Some w.
Proof.
  unfold macro, truthy. intros M E F. destruct (match value v (s "MODULE_MACRO") with Some w => negb (is_off w) | None => false end) eqn:T; [apply some_inj in M; subst; exact E|].
  destruct (arguments _) as [|t [|]]; try discriminate. apply some_inj in M. subst v'. rewrite value_text. destruct (str_eqb y (s "MODULE_MACRO")) eqn:N; [|exact E].
  apply str_eqb_eq in N. subst. rewrite E, F in T. discriminate.
Qed.
Lemma macro_other v v' y : macro v = Some v' -> y <> s "MODULE_MACRO" -> value v' y = value v y.
Proof.
  unfold macro. intros M N. destruct (truthy v (s "MODULE_MACRO")); [apply some_inj in M; subst; reflexivity|].
  destruct (arguments _) as [|t [|]]; try discriminate. apply some_inj in M. subst v'. rewrite value_text. apply str_eqb_neq in N. rewrite N. reflexivity.
Qed.
Lemma defaults_kept dir v v' y w : defaults dir v = Some v' -> value v y = Some w -> is_off w = false -> value v' y = Some w.
Proof.
  unfold defaults. destruct (macro (information v)) as [v1|] eqn:M; [|discriminate]. cbn [option_map]. intros D E F. apply some_inj in D. subst v'.
  assert (A : value v1 y = Some w). { apply (macro_kept _ _ _ _ M); [|exact F]. unfold information. cbv zeta. do 4 (apply setting_kept; [|exact F]). exact E. }
  unfold headers, dependencies. cbv zeta. do 9 (apply setting_kept; [|exact F]). exact A.
Qed.
Lemma load_inv files dir args v v' : load files dir args v = Some v' -> exists file, files (settings_file dir args) = Some file /\
  defined (execute file (chosen dir args v)) (s "MODULE_NAME") = true /\ defaults dir (execute file (chosen dir args v)) = Some v'.
Proof.
  unfold load. destruct (files (settings_file dir args)) as [file|]; [|discriminate]. cbv zeta. destruct (defined _ _) eqn:D; [|discriminate]. intro E. exists file. auto.
Qed.

Lemma given_lemma files dir args v v' file x t : load files dir args v = Some v' -> files (match args with [] => dir ++ s "/project_settings.cmake" | f :: _ => f end) = Some file ->
  says file x t -> ~ false_text t -> value v' x = Some t.
Proof.
  intros L F S0 N. apply load_inv in L as (f & F' & _ & D). unfold settings_file in F'. rewrite F in F'. apply some_inj in F'. subst f.
  eapply defaults_kept; [exact D| |apply not_off; exact N]. apply execute_says. exact S0.
Qed.

Lemma default_lemma files dir args v v' file x t : load files dir args v = Some v' -> files (match args with [] => dir ++ s "/project_settings.cmake" | f :: _ => f end) = Some file ->
  documented_setting (value v') x t -> value v x = None -> (forall u, ~ In (x, u) file) -> plain t -> value v' x = Some t.
Proof.
  intros L F D E N P. apply load_inv in L as (f & F' & _ & K). unfold settings_file in F'. rewrite F in F'. apply some_inj in F'. subst f.
  assert (I : documented_name x) by (destruct D as [x t I _| | |]; unfold documented_name; cbn [In] in *; intuition).
  assert (X : value (execute file (chosen dir args v)) x = None).
  { rewrite execute_other by exact N. rewrite chosen_other by (dis I). exact E. }
  clear E N F. generalize dependent (execute file (chosen dir args v)). intros w K X.
  unfold defaults in K. destruct (macro (information w)) as [w1|] eqn:M; [|discriminate]. cbn [option_map] in K. apply some_inj in K. subst v'.
  assert (O : forall y, y = s "MODULE_NAME" \/ y = s "MODULE_SUMMARY" \/ y = s "MODULE_NAME_LARGE" \/ y = s "MODULE_DESCRIPTION" -> value (headers (dependencies dir w1)) y = value (information w) y).
  { intros y Y. rewrite <- (macro_other _ _ y M) by (destruct Y as [->|[->|[->| ->]]]; discriminate).
    unfold headers, dependencies. cbv zeta. repeat (rewrite setting_other; [|destruct Y as [->|[->|[->| ->]]]; discriminate]). reflexivity. }
  assert (NM : value (information w) (s "MODULE_NAME") = value w (s "MODULE_NAME")) by (unfold information; cbv zeta; rewrite !setting_other by discriminate; reflexivity).
  destruct D as [x t J G|t G|t u G U|t G].
  - rewrite O in G by auto. rewrite NM in G. cbn [In] in J. destruct J as [<-|[<-|[<-|[]]]].
    + rewrite O by auto. unfold information. cbv zeta. rewrite setting_other by discriminate. apply setting_copy; [| |exact P]; rewrite !setting_other by discriminate; assumption.
    + rewrite O by auto. unfold information. cbv zeta. rewrite !setting_other by discriminate. apply setting_copy; [| |exact P]; rewrite ?setting_other by discriminate; assumption.
    + unfold headers. cbv zeta. rewrite !setting_other by discriminate. apply setting_copy; [| |exact P]; unfold dependencies; cbv zeta; rewrite !setting_other by discriminate; rewrite (macro_other _ _ _ M) by discriminate.
      * unfold information. cbv zeta. rewrite !setting_other by discriminate. exact X.
      * rewrite NM. exact G.
  - rewrite O in G by auto. rewrite O by auto. unfold information in *. cbv zeta in *. rewrite setting_other in G by discriminate. apply setting_copy; [|exact G|exact P]. rewrite !setting_other by discriminate. exact X.
  - rewrite O in G by auto. rewrite NM in G. apply uppercase_unique in U. subst u. pose proof (upper_plain t P) as PT. unfold macro, truthy in M.
    assert (XM : value (information w) (s "MODULE_MACRO") = None) by (unfold information; cbv zeta; rewrite !setting_other by discriminate; exact X).
    rewrite XM in M. unfold expand in M. rewrite NM, G in M. rewrite (plain_arguments t PT) in M. apply some_inj in M. subst w1.
    unfold headers, dependencies. cbv zeta. rewrite !setting_other by discriminate. rewrite value_text, str_eqb_refl. reflexivity.
  - unfold headers in G. cbv zeta in G. rewrite !(setting_other _ _ _ (s "MODULE_HEADERS_PATH")) in G by discriminate.
    unfold headers. cbv zeta. rewrite !(setting_other _ _ _ (s "MODULE_HEADERS_INSTALL_PATH")) by discriminate.
    apply setting_copy; [| |exact P].
    + rewrite setting_other by discriminate. unfold dependencies; cbv zeta; rewrite !setting_other by discriminate. rewrite (macro_other _ _ _ M) by discriminate. unfold information. cbv zeta. rewrite !setting_other by discriminate. exact X.
    + exact G.
Qed.

Lemma accepted_lemma files dir args v file t : files (match args with [] => dir ++ s "/project_settings.cmake" | f :: _ => f end) = Some file -> says file (s "MODULE_NAME") t -> plain t ->
  exists v', load files dir args v = Some v'.
Proof.
  intros F S0 P. change (files (settings_file dir args) = Some file) in F. unfold load. rewrite F. cbv zeta. pose proof (execute_says file (chosen dir args v) _ _ S0) as E. unfold defined. rewrite E. unfold defaults, macro.
  destruct (truthy _ _); [eexists; reflexivity|]. unfold expand. assert (NM : forall w, value (information w) (s "MODULE_NAME") = value w (s "MODULE_NAME")) by (intro w; unfold information; cbv zeta; rewrite !setting_other by discriminate; reflexivity).
  rewrite NM, E, (plain_arguments t P). eexists. reflexivity.
Qed.
Lemma in_dec_false {t : str} {c} : In c t -> existsb (Ascii.eqb c) t = false -> False.
Proof. intros I E. assert (X : existsb (Ascii.eqb c) t = true) by (apply existsb_exists; exists c; split; [exact I|apply Ascii.eqb_refl]). congruence. Qed.
Lemma upper_plain_conv t : plain t -> plain (map upper t).
Proof.
  intros [N P]. split; [destruct t; [congruence|discriminate]|]. intro I. apply in_map_iff in I as (c & E & I). apply P. destruct (letters c) as [(i & A & B)|[E' _]]; [|congruence].
  rewrite E in B. exfalso. do 26 (destruct i as [|i]; [discriminate B|]). destruct i; discriminate.
Qed.
