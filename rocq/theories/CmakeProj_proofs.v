(** Proofs of C159. *)
From Verif Require Import Str_proofs Cmake_model Cmake_spec Cmake_proofs CmakeOpt_model CmakeOpt_spec CmakeOpt_proofs CmakeSet_model CmakeSet_spec CmakeSet_proofs CmakeCpp_spec CmakeCpp_proofs CmakeInstall_model CmakeInstall_spec CmakeInstall_proofs CmakeProj_model CmakeProj_spec.

(** the variables that each part may set *)
Definition options : list str := [s "BUILD_TESTS"; s "BUILD_DOCS_TESTS"; s "BUILD_TOOL_TESTS"; s "BUILD_LIBRARY_TESTS"; s "BUILD_ALL"; s "BUILD_DOCS"; s "BUILD_TOOL"; s "BUILD_LIBRARY";
  s "CODE_COVERAGE"; s "TSAN_BUILD"; s "ASAN_BUILD"; s "CMAKE_BUILD_TYPE"; s "LOG_INFO"].
Definition loaded : list str := [s "VARIADIC_ARGS"; s "VARIADIC_ARGS_LENGTH"; s "PROJECT_SETTINGS_FILE"; s "MODULE_TARGET_NAME"; s "MODULE_NAME_LARGE"; s "MODULE_SUMMARY"; s "MODULE_DESCRIPTION";
  s "MODULE_MACRO"; s "MODULE_THIRDPARTY_PATH"; s "MODULE_FIND_PACKAGES"; s "MODULE_DEPENDENCIES"; s "MODULE_VERSION_FILE_PATH"; s "MODULE_LICENSE_FILE_PATH"; s "MODULE_HEADERS_PATH";
  s "MODULE_HEADERS_INSTALL_PATH"; s "MODULE_PUBLIC_EXTRA_HEADERS"; s "MODULE_PRIVATE_EXTRA_HEADERS"].
Lemma not_in x l : existsb (str_eqb x) l = false -> ~ In x l.
Proof. intros E I. assert (existsb (str_eqb x) l = true); [|congruence]. apply existsb_exists. exists x. split; [exact I|apply str_eqb_refl]. Qed.
Ltac notin := apply not_in; vm_compute; reflexivity.

Lemma options_other keep v v' x : configure keep v = Some v' -> ~ In x options -> value v' x = value v x.
Proof.
  intros C N. unfold options in N. cbn [In] in N. rewrite configure_parts in C. destruct (part2 (part1 v)) as [v2|] eqn:P; [|discriminate]. apply some_inj in C. subst v'.
  rewrite part4_other by (intro Q; apply N; rewrite Q; auto 20). unfold part3. cbv zeta. rewrite !other_default by (intro Q; apply N; rewrite Q; auto 20).
  rewrite (part2_other _ _ _ P) by (intro Q; apply N; rewrite Q; auto 20). unfold part1. cbv zeta. rewrite !other_default by (intro Q; apply N; rewrite Q; auto 20). reflexivity.
Qed.
Lemma load_other files dir args v v' file x : load files dir args v = Some v' -> files (settings_file dir args) = Some file -> (forall u, ~ In (x, u) file) -> ~ In x loaded -> value v' x = value v x.
Proof.
  intros L F U N. unfold loaded in N. cbn [In] in N. apply load_inv in L as (f & F' & _ & D). rewrite F in F'. apply some_inj in F'. subst f.
  unfold defaults in D. destruct (macro _) as [v1|] eqn:M; [|discriminate]. cbn [option_map] in D. apply some_inj in D. subst v'.
  unfold headers, dependencies. cbv zeta. rewrite !setting_other by (intro Q; apply N; rewrite Q; auto 25). rewrite (macro_other _ _ _ M) by (intro Q; apply N; rewrite Q; auto 25).
  unfold information. cbv zeta. rewrite !setting_other by (intro Q; apply N; rewrite Q; auto 25). rewrite execute_other by exact U. apply chosen_other; intro Q; apply N; rewrite Q; auto 25.
Qed.
(** what only load may set: the file says so even of false values *)
Lemma load_says files dir args v v' file x t : load files dir args v = Some v' -> files (settings_file dir args) = Some file -> CmakeSet_spec.says file x t -> ~ In x loaded -> value v' x = Some t.
Proof.
  intros L F U N. unfold loaded in N. cbn [In] in N. apply load_inv in L as (f & F' & _ & D). rewrite F in F'. apply some_inj in F'. subst f.
  unfold defaults in D. destruct (macro _) as [v1|] eqn:M; [|discriminate]. cbn [option_map] in D. apply some_inj in D. subst v'.
  unfold headers, dependencies. cbv zeta. rewrite !setting_other by (intro Q; apply N; rewrite Q; auto 25). rewrite (macro_other _ _ _ M) by (intro Q; apply N; rewrite Q; auto 25).
  unfold information. cbv zeta. rewrite !setting_other by (intro Q; apply N; rewrite Q; auto 25). apply execute_says. exact U.
Qed.
Lemma configure_inv b dir v v' : configure_project b dir v = Some v' -> exists v1 v2 v3, load (settings b) dir [] v = Some v1 /\ version_step b v1 = Some v2 /\ configure (keep b) (hash_step b v2) = Some v3 /\
  v' = paths (keep b) (absolute b) (win32 b) v3.
Proof.
  unfold configure_project. destruct (str_eqb _ _); [discriminate|]. destruct (load _ _ _ _) as [v1|]; [|discriminate]. destruct (version_step b v1) as [v2|] eqn:E; [|discriminate].
  destruct (configure _ _) as [v3|] eqn:C; [|discriminate]. cbn [option_map]. intro K. apply some_inj in K. exists v1, v2, v3. auto.
Qed.
Definition later (x : str) : Prop := ~ In x options /\ ~ In x (license_directory :: map fst documented_directories) /\ ~ In x (map snd common_names).
Lemma later_value b v2 v3 x : configure (keep b) (hash_step b v2) = Some v3 -> later x -> value (paths (keep b) (absolute b) (win32 b) v3) x = value (hash_step b v2) x.
Proof. intros C (A & B & D). rewrite CmakeInstall_proofs.rest_lemma by assumption. apply (options_other _ _ _ _ C A). Qed.
Lemma hash_other b v x : x <> commit -> value (hash_step b v) x = value v x.
Proof. intro N. unfold hash_step. destruct (defined _ _); [reflexivity|]. rewrite value_text. apply str_eqb_neq in N. fold commit. rewrite N. reflexivity. Qed.
Lemma given_load b dir v v1 file x t : load (settings b) dir [] v = Some v1 -> settings b (settings_of dir) = Some file -> gives file v x t -> ~ In x loaded -> value v1 x = Some t.
Proof. intros L F [S0|[N E]] I; [eapply load_says; eassumption|]. rewrite (load_other _ _ _ _ _ _ _ L F N I). exact E. Qed.
Lemma ungiven_load b dir v v1 file x : load (settings b) dir [] v = Some v1 -> settings b (settings_of dir) = Some file -> gives_not file v x -> ~ In x loaded -> value v1 x = None.
Proof. intros L F [N E] I. rewrite (load_other _ _ _ _ _ _ _ L F N I). exact E. Qed.
Lemma version_names x : In x (whole :: version_string :: numbers) -> ~ In x loaded /\ later x /\ x <> commit.
Proof. intro I. unfold numbers in I. cbn [In] in I. destruct I as [<-|[<-|[<-|[<-|[<-|[]]]]]]; (split; [notin|split; [split; [notin|split; notin]|discriminate]]). Qed.

Lemma in_source_lemma b dir v : source b = binary b -> configure_project b dir v = None.
Proof. intro E. unfold configure_project. rewrite E, str_eqb_refl. reflexivity. Qed.
Lemma kept_version b dir v v' file x t : configure_project b dir v = Some v' -> settings b (settings_of dir) = Some file -> (forall y, In y (whole :: numbers) -> exists u, gives file v y u) ->
  In x (whole :: numbers) -> gives file v x t -> value v' x = Some t.
Proof.
  intros C F A I G. apply configure_inv in C as (v1 & v2 & v3 & L & V & C & ->).
  assert (D : forall y, In y (whole :: numbers) -> defined v1 y = true).
  { intros y Y. destruct (A y Y) as [u U]. unfold defined. rewrite (given_load _ _ _ _ _ _ _ L F U); [reflexivity|]. apply version_names. destruct Y as [Y|Y]; [left; exact Y|right; right; exact Y]. }
  assert (X : In x (whole :: version_string :: numbers)) by (destruct I as [Y|Y]; [left; exact Y|right; right; exact Y]). apply version_names in X as (X1 & X2 & X3).
  unfold version_step in V. fold major minor patch whole in V. rewrite (D major), (D minor), (D patch), (D whole) in V by (unfold numbers; cbn [In]; auto 10). cbn [andb] in V. apply some_inj in V. subst v2.
  rewrite (later_value _ _ _ _ C X2), (hash_other _ _ _ X3). exact (given_load _ _ _ _ _ _ _ L F G X1).
Qed.
Lemma set_get v x t : t <> [] -> value (set v x t) x = Some t.
Proof. intro N. rewrite value_set, str_eqb_refl. destruct t; [contradiction|reflexivity]. Qed.
Lemma set_skip v x t y : str_eqb y x = false -> value (set v x t) y = value v y.
Proof. intro N. rewrite value_set, N. reflexivity. Qed.
Lemma text_skip v x t y : str_eqb y x = false -> value (set_text v x t) y = value v y.
Proof. intro N. rewrite value_text, N. reflexivity. Qed.
Definition names : list str := whole :: version_string :: numbers.
Lemma version_other b v v2 x : version_step b v = Some v2 -> ~ In x names -> value v2 x = value v x.
Proof.
  intros V N. assert (M : forall y, In y names -> str_eqb x y = false) by (intros y I; apply str_eqb_neq; intros ->; contradiction). clear N.
  unfold version_step in V. destruct (_ && _); [apply some_inj in V; subst; reflexivity|]. unfold read_into in V. destruct (arguments _) as [|p ps]; [discriminate|]. destruct (text b p) as [t|]; [|discriminate].
  destruct (arguments t) as [|a l]; [discriminate|]. cbv zeta in V. apply some_inj in V. subst v2.
  destruct (defined _ _); [|rewrite text_skip by (apply M; unfold names; cbn [In]; auto)];
    (rewrite other_default by (apply str_eqb_neq; apply M; unfold names; cbn [In]; auto)); rewrite !set_skip by (apply M; unfold names, numbers; cbn [In]; auto 10); reflexivity.
Qed.
Ltac eqv := repeat (first [rewrite set_skip by (vm_compute; reflexivity)|rewrite text_skip by (vm_compute; reflexivity)|rewrite set_get by assumption|rewrite other_default by discriminate]).
Lemma read_into_lemma b v v2 p t x y z : (forall q, In q names -> value v q = None) -> value v (s "MODULE_VERSION_FILE_PATH") = Some p -> CmakeSet_spec.plain p -> text b p = Some t -> ~ In ";"%char t ->
  match_1 (s "VERSION_MAJOR ") t = x -> match_1 (s "VERSION_MINOR ") t = y -> match_1 (s "VERSION_PATCH ") t = z -> x <> [] -> y <> [] -> z <> [] -> t <> [] -> read_into b v = Some v2 ->
  value v2 major = Some x /\ value v2 minor = Some y /\ value v2 patch = Some z /\ value v2 whole = Some (dotted x y z) /\ value v2 version_string = Some (s "v" ++ dotted x y z).
Proof.
  intros D P Q T S0 X Y Z NX NY NZ NT V. unfold read_into in V. unfold expand at 1 in V. rewrite P, (plain_arguments p Q), T, (arguments_one t S0 NT) in V. cbv zeta in V.
  cbn [concat] in V. rewrite app_nil_r, X, Y, Z in V.
  set (w := set (set (set v (s "MODULE_VERSION_MAJOR") x) (s "MODULE_VERSION_MINOR") y) (s "MODULE_VERSION_PATCH") z) in V.
  assert (W1 : value w major = Some x) by (unfold w, major; eqv; reflexivity). assert (W2 : value w minor = Some y) by (unfold w, minor; eqv; reflexivity). assert (W3 : value w patch = Some z) by (unfold w, patch; eqv; reflexivity).
  assert (W4 : value w whole = None) by (unfold w, whole; eqv; apply D; left; reflexivity). assert (W5 : value w version_string = None) by (unfold w, version_string; eqv; apply D; right; left; reflexivity).
  unfold expand in V. change (s "MODULE_VERSION_MAJOR") with major in V. change (s "MODULE_VERSION_MINOR") with minor in V. change (s "MODULE_VERSION_PATCH") with patch in V. rewrite W1, W2, W3 in V.
  fold (dotted x y z) in V. change (s "MODULE_VERSION_STRING") with version_string in V. change (s "MODULE_VERSION") with whole in V. clearbody w.
  assert (N : dotted x y z <> []) by (unfold dotted; destruct x; discriminate).
  set (u := default whole (dotted x y z) w) in V. assert (U : value u whole = Some (dotted x y z)).
  { unfold u, default, defined. rewrite W4. apply set_get. exact N. }
  assert (O : forall q, q <> whole -> value u q = value w q) by (intros q K; apply other_default; exact K). clearbody u.
  unfold defined in V. rewrite (O version_string) in V by discriminate. rewrite W5, U in V. apply some_inj in V. subst v2.
  split; [rewrite text_skip, O by (discriminate || (vm_compute; reflexivity)); exact W1|]. split; [rewrite text_skip, O by (discriminate || (vm_compute; reflexivity)); exact W2|].
  split; [rewrite text_skip, O by (discriminate || (vm_compute; reflexivity)); exact W3|]. split; [rewrite text_skip by (vm_compute; reflexivity); exact U|].
  rewrite value_text, str_eqb_refl. reflexivity.
Qed.
Lemma read_version_lemma b dir v v' file p t x y z : configure_project b dir v = Some v' -> settings b (settings_of dir) = Some file -> (forall q, In q (whole :: version_string :: numbers) -> gives_not file v q) ->
  value v' (s "MODULE_VERSION_FILE_PATH") = Some p -> CmakeSet_spec.plain p -> text b p = Some t -> ~ In ";"%char t ->
  Cmake_spec.says t (s "VERSION_MAJOR ") x -> Cmake_spec.says t (s "VERSION_MINOR ") y -> Cmake_spec.says t (s "VERSION_PATCH ") z -> x <> [] -> y <> [] -> z <> [] ->
  value v' major = Some x /\ value v' minor = Some y /\ value v' patch = Some z /\ value v' whole = Some (dotted x y z) /\ value v' version_string = Some (s "v" ++ dotted x y z).
Proof.
  intros C F A P Q T S0 X Y Z NX NY NZ. apply configure_inv in C as (v1 & v2 & v3 & L & V & C & ->).
  assert (D : forall q, In q names -> value v1 q = None) by (intros q I; apply (ungiven_load _ _ _ _ _ _ L F (A q I)); apply version_names; exact I).
  assert (G : forall q, In q names -> value (paths (keep b) (absolute b) (win32 b) v3) q = value v2 q).
  { intros q I. apply version_names in I as (I1 & I2 & I3). rewrite (later_value _ _ _ _ C I2). apply hash_other. exact I3. }
  rewrite !G by (unfold names, numbers; cbn [In]; auto 10). clear G.
  rewrite (later_value _ _ _ _ C) in P by (split; [notin|split; notin]). rewrite hash_other in P by discriminate. rewrite (version_other _ _ _ _ V) in P by notin.
  apply (read_into_lemma b v1 v2 p t x y z); try assumption; [apply says_match; exact X|apply says_match; exact Y|apply says_match; exact Z| |].
  - destruct X as (a & c & E & _). rewrite E. destruct a; discriminate.
  - unfold version_step in V. fold major in V. unfold defined at 1 in V. rewrite (D major) in V by (unfold names, numbers; cbn [In]; auto 10). exact V.
Qed.
Lemma commit_lemma b dir v v' file : configure_project b dir v = Some v' -> settings b (settings_of dir) = Some file ->
  (forall t, gives file v commit t -> value v' commit = Some t) /\ (gives_not file v commit -> value v' commit = Some (git b (source b))).
Proof.
  intros C F. apply configure_inv in C as (v1 & v2 & v3 & L & V & C & ->). rewrite (later_value _ _ _ _ C) by (split; [notin|split; notin]).
  assert (E : value v2 commit = value v1 commit) by (apply (version_other _ _ _ _ V); notin). split.
  - intros t G. rewrite (given_load _ _ _ _ _ _ _ L F G) in E by notin. unfold hash_step, defined. fold commit. rewrite E. exact E.
  - intro G. rewrite (ungiven_load _ _ _ _ _ _ L F G) in E by notin. unfold hash_step, defined. fold commit. rewrite E, value_text, str_eqb_refl. reflexivity.
Qed.
Lemma version_kept b v v2 x t : version_step b v = Some v2 -> ~ In x numbers -> value v x = Some t -> value v2 x = Some t.
Proof.
  intros V N E. assert (M : forall y, In y numbers -> str_eqb x y = false) by (intros y I; apply str_eqb_neq; intros ->; contradiction). clear N.
  unfold version_step in V. destruct (_ && _); [apply some_inj in V; subst; exact E|]. unfold read_into in V. destruct (arguments _) as [|p ps]; [discriminate|]. destruct (text b p) as [c|]; [|discriminate].
  destruct (arguments c) as [|a l]; [discriminate|]. cbv zeta in V. apply some_inj in V. subst v2.
  match goal with |- context [defined ?u version_string] => assert (U : value u x = Some t) | |- context [defined ?u (s "MODULE_VERSION_STRING")] => assert (U : value u x = Some t) end.
  { apply kept_default. rewrite !set_skip by (apply M; unfold numbers; cbn [In]; auto 10). exact E. }
  destruct (defined _ (s "MODULE_VERSION_STRING")) eqn:D; [exact U|]. rewrite value_text. destruct (str_eqb x (s "MODULE_VERSION_STRING")) eqn:K; [|exact U]. apply str_eqb_eq in K. subst x. unfold defined in D. rewrite U in D. discriminate.
Qed.
Lemma settings_lemma b dir v v' file x t : configure_project b dir v = Some v' -> settings b (settings_of dir) = Some file -> CmakeSet_spec.says file x t -> ~ false_text t ->
  x <> s "LOG_INFO" -> ~ In x shared -> ~ In x numbers -> value v' x = Some t.
Proof.
  intros C F S0 N NL NS NN. apply configure_inv in C as (v1 & v2 & v3 & L & V & C & ->).
  pose proof (CmakeSet_proofs.given_lemma _ _ _ _ _ _ _ _ L F S0 N) as E1. pose proof (version_kept _ _ _ _ _ V NN E1) as E2.
  assert (E3 : value (hash_step b v2) x = Some t).
  { destruct (str_eqb x commit) eqn:K; [apply str_eqb_eq in K; subst x; unfold hash_step, defined; fold commit; rewrite E2; exact E2|apply str_eqb_neq in K; rewrite hash_other; assumption]. }
  pose proof (CmakeOpt_proofs.kept_lemma _ _ _ _ _ C NL E3) as E4. destruct (existsb (str_eqb x) (license_directory :: map fst documented_directories)) eqn:D.
  - rewrite CmakeInstall_proofs.given_lemma; [exact E4| |exists t; auto]. apply existsb_exists in D as (y & I & K). apply str_eqb_eq in K. subst y. exact I.
  - rewrite CmakeInstall_proofs.rest_lemma; [exact E4|apply not_in; exact D|exact NS].
Qed.
Lemma path_lemma b dir v v1 file : load (settings b) dir [] v = Some v1 -> settings b (settings_of dir) = Some file -> gives_not file v (s "MODULE_VERSION_FILE_PATH") ->
  value v1 (s "MODULE_VERSION_FILE_PATH") = Some (dir ++ s "/../VERSION").
Proof.
  intros L F [U E]. apply load_inv in L as (f & F' & _ & D). change (settings_file dir []) with (settings_of dir) in F'. rewrite F in F'. apply some_inj in F'. subst f.
  unfold defaults in D. destruct (macro _) as [v0|] eqn:M; [|discriminate]. cbn [option_map] in D. apply some_inj in D. subst v1.
  assert (K : value v0 (s "MODULE_VERSION_FILE_PATH") = None).
  { rewrite (macro_other _ _ _ M) by discriminate. unfold information. cbv zeta. rewrite !setting_other by discriminate. rewrite execute_other by exact U. rewrite chosen_other by discriminate. exact E. }
  unfold headers. cbv zeta. rewrite !setting_other by discriminate. unfold dependencies. cbv zeta. rewrite setting_other by discriminate.
  unfold setting at 1, truthy. rewrite !setting_other by discriminate. rewrite K, value_text, str_eqb_refl. reflexivity.
Qed.
Lemma accepted_lemma b dir v file n t : source b <> binary b -> settings b (settings_of dir) = Some file -> CmakeSet_spec.says file (s "MODULE_NAME") n -> CmakeSet_spec.plain n ->
  gives_not file v (s "MODULE_VERSION_FILE_PATH") -> ~ In ";"%char dir -> text b (dir ++ s "/../VERSION") = Some t -> t <> [] -> ~ In ";"%char t ->
  (forall x w, In x [s "BUILD_TESTS"; s "BUILD_DOCS_TESTS"; s "BUILD_ALL"] -> gives file v x w -> w = s "ON" \/ w = s "OFF") -> exists v', configure_project b dir v = Some v'.
Proof.
  intros NS F S0 P G ND T NT NTS O. unfold configure_project. apply str_eqb_neq in NS. rewrite NS.
  destruct (CmakeSet_proofs.accepted_lemma (settings b) dir [] v file n F S0 P) as [v1 L].
  match goal with |- context [load ?a ?c ?d ?e] => replace (load a c d e) with (Some v1) by (symmetry; exact L) end.
  assert (Q : exists v2, version_step b v1 = Some v2).
  { unfold version_step. destruct (_ && _); [eauto|]. unfold read_into, expand at 1. rewrite (path_lemma _ _ _ _ _ L F G). rewrite plain_arguments.
    - rewrite T, (arguments_one t NTS NT). cbv zeta. eauto.
    - split; [destruct dir; discriminate|]. intro I. apply in_app_or in I as [I|I]; [contradiction|]. apply (in_dec_false I). vm_compute. reflexivity. }
  destruct Q as [v2 V]. rewrite V. destruct (CmakeOpt_proofs.succeeds (keep b) (hash_step b v2)) as [v3 C]; [|rewrite C; cbn [option_map]; eauto].
  intros x w I E. assert (K : ~ In x loaded /\ x <> commit /\ ~ In x names) by (cbn [In] in I; destruct I as [<-|[<-|[<-|[]]]]; (split; [notin|split; [discriminate|notin]])). destruct K as (K1 & K2 & K3).
  rewrite hash_other in E by exact K2. rewrite (version_other _ _ _ _ V K3) in E. apply (O x w I).
  destruct (in_dec (list_eq_dec ascii_dec) x (map fst file)) as [J|J].
  - left. clear - J E L F K1. assert (exists u, CmakeSet_spec.says file x u) as [u U].
    { clear - J. induction file as [|[y u] file IH]; [contradiction|]. destruct (in_dec (list_eq_dec ascii_dec) x (map fst file)) as [I|I].
      - destruct (IH I) as (u' & a & c & -> & H). exists u', ((y, u) :: a), c. split; [reflexivity|exact H].
      - destruct J as [J|J]; [|contradiction]. cbn [fst] in J. subst y. exists u, [], file. split; [reflexivity|]. intros u' I'. apply I. apply in_map_iff. exists (x, u'). auto. }
    rewrite (load_says _ _ _ _ _ _ _ _ L F U K1) in E. apply some_inj in E. subst u. exact U.
  - right. assert (N : forall u, ~ In (x, u) file) by (intros u I'; apply J; apply in_map_iff; exists (x, u); auto). split; [exact N|]. rewrite <- (load_other _ _ _ _ _ _ _ L F N K1). exact E.
Qed.
