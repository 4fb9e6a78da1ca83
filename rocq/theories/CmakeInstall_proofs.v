(** Proofs of C150. *)
From Verif Require Import Str_proofs Cmake_model CmakeOpt_model CmakeSet_model CmakeSet_spec CmakeSet_proofs CmakeCpp_spec CmakeCpp_proofs CmakeInstall_model CmakeInstall_spec.

Lemma path_other keep ab x t v y : y <> x -> value (path_default keep ab x t v) y = value v y.
Proof.
  intro N. apply str_eqb_neq in N. unfold path_default, cache_path. cbv zeta. destruct (truthy v x); [reflexivity|]. destruct (cached v x) as [[[] u]|]; [reflexivity| |];
    unfold value; cbn [normal cached]; destruct keep; unfold update; rewrite N; reflexivity.
Qed.
Lemma path_enabled keep ab x t v : enabled v x -> path_default keep ab x t v = v.
Proof. intro E. apply truthy_enabled in E. unfold path_default. now rewrite E. Qed.
Lemma path_unset keep ab x t v : value v x = None -> value (path_default keep ab x t v) x = Some t.
Proof.
  intro E. assert (T : truthy v x = false) by (unfold truthy; now rewrite E). unfold path_default. rewrite T. unfold value in E. destruct (normal v x) eqn:N; [discriminate|].
  destruct (cached v x) as [p|] eqn:C; [discriminate|]. unfold cache_path. cbv zeta. rewrite C. unfold value. cbn [normal cached]. unfold update. destruct keep; rewrite ?N, ?str_eqb_refl; reflexivity.
Qed.
Lemma common_other v y : ~ In y (map snd common_names) -> value (common v) y = value v y.
Proof.
  intro N. cbn [map common_names snd In] in N. unfold common. cbv zeta. rewrite !value_from_other by (intro Q; apply N; rewrite Q; auto 10). reflexivity.
Qed.
Lemma from_plain v x y t : value v y = Some t -> plain t -> value (set_from v x y) x = Some t.
Proof. intros E P. unfold set_from, expand. rewrite E, (plain_arguments t P). cbn [join]. rewrite value_text, str_eqb_refl. reflexivity. Qed.
Lemma common_lemma v x c t : In (x, c) common_names -> value v x = Some t -> plain t -> value (common v) c = Some t.
Proof.
  intros I E P. unfold common_names in I. cbn [In] in I. unfold common. cbv zeta.
  destruct I as [I|[I|[I|[I|[I|[]]]]]]; pose proof (f_equal fst I) as A; pose proof (f_equal snd I) as B; cbn [fst snd] in A, B; rewrite <- A in E; rewrite <- B; clear A B I.
  - do 4 rewrite value_from_other by discriminate. now apply from_plain.
  - do 3 rewrite value_from_other by discriminate. apply from_plain; [|exact P]. rewrite value_from_other by discriminate. exact E.
  - do 2 rewrite value_from_other by discriminate. apply from_plain; [|exact P]. do 2 rewrite value_from_other by discriminate. exact E.
  - rewrite value_from_other by discriminate. apply from_plain; [|exact P]. do 3 rewrite value_from_other by discriminate. exact E.
  - apply from_plain; [|exact P]. do 4 rewrite value_from_other by discriminate. exact E.
Qed.
Lemma directories_other keep ab v y : ~ In y (map fst documented_directories) -> value (directories keep ab v) y = value v y.
Proof. intro N. cbn [map documented_directories fst In] in N. unfold directories. cbv zeta. rewrite !path_other by (intro Q; apply N; rewrite Q; auto 10). reflexivity. Qed.
(** one of the four: what its step makes of its value *)
Lemma directories_step keep ab v x t : In (x, t) documented_directories -> exists u, value u x = value v x /\ value (directories keep ab v) x = value (path_default keep ab x t u) x.
Proof.
  intro I. unfold documented_directories in I. cbn [In] in I. unfold directories. cbv zeta.
  destruct I as [I|[I|[I|[I|[]]]]]; pose proof (f_equal fst I) as A; pose proof (f_equal snd I) as B; cbn [fst snd] in A, B; rewrite <- A, <- B; clear A B I.
  - exists v. split; [reflexivity|]. now rewrite !(path_other keep ab _ _ _ (s "MODULE_BIN_INSTALL_DIR")) by discriminate.
  - eexists. split; [|rewrite (path_other keep ab (s "MODULE_DATA_INSTALL_DIR")), (path_other keep ab (s "MODULE_LIB_INSTALL_DIR")) by discriminate; reflexivity]. now rewrite path_other.
  - eexists. split; [|rewrite (path_other keep ab (s "MODULE_DATA_INSTALL_DIR")) by discriminate; reflexivity]. now rewrite !path_other.
  - eexists. split; [|reflexivity]. now rewrite !path_other.
Qed.
Lemma enabled_value u v x : value u x = value v x -> enabled u x <-> enabled v x.
Proof. intro E. unfold enabled. rewrite E. tauto. Qed.
Lemma not_common x : existsb (str_eqb x) (map snd common_names) = false -> ~ In x (map snd common_names).
Proof. intros H I. rewrite <- Bool.not_true_iff_false in H. apply H. apply existsb_exists. exists x. split; [exact I|apply str_eqb_refl]. Qed.
Lemma directory_not x t : In (x, t) documented_directories -> existsb (str_eqb x) (map snd common_names) = false /\ x <> license_directory.
Proof.
  intro I. unfold documented_directories in I. cbn [In] in I. destruct I as [I|[I|[I|[I|[]]]]]; apply (f_equal fst) in I; cbn [fst] in I; rewrite <- I; (split; [vm_compute; reflexivity|discriminate]).
Qed.
Lemma paths_license keep ab w v : value (paths keep ab w v) license_directory = value (license keep ab w (directories keep ab v)) license_directory.
Proof. unfold paths. apply common_other. apply not_common. vm_compute. reflexivity. Qed.
Lemma directories_license keep ab v : value (directories keep ab v) license_directory = value v license_directory.
Proof. apply directories_other. cbn [map documented_directories fst In]. intros [H|[H|[H|[H|[]]]]]; discriminate H. Qed.
Lemma paths_directory keep ab w v x t : In (x, t) documented_directories -> value (paths keep ab w v) x = value (directories keep ab v) x.
Proof.
  intro I. destruct (directory_not x t I) as [A B]. unfold paths. rewrite common_other by now apply not_common. unfold license. now rewrite path_other.
Qed.
Lemma given_lemma keep ab w v x : In x (license_directory :: map fst documented_directories) -> enabled v x -> value (paths keep ab w v) x = value v x.
Proof.
  intros [<- |I] E.
  - rewrite paths_license. unfold license. rewrite path_enabled; [apply directories_license|]. apply (enabled_value _ v _ (directories_license keep ab v)). exact E.
  - apply in_map_iff in I. destruct I as ([x' t] & X & I). cbn [fst] in X. subst x'. rewrite (paths_directory keep ab w v x t I).
    destruct (directories_step keep ab v x t I) as (u & U & ->). rewrite path_enabled; [exact U|]. now apply (enabled_value u v x U).
Qed.
Lemma default_lemma keep ab w v x t : In (x, t) documented_directories -> value v x = None -> value (paths keep ab w v) x = Some t.
Proof.
  intros I E. rewrite (paths_directory keep ab w v x t I). destruct (directories_step keep ab v x t I) as (u & U & ->). apply path_unset. now rewrite U.
Qed.
Lemma license_lemma keep ab w v : value v license_directory = None ->
  value (paths keep ab w v) license_directory = Some (if w then s "." else expand (paths keep ab w v) (s "MODULE_DATA_INSTALL_DIR") ++ s "/" ++ expand v (s "MODULE_NAME")).
Proof.
  intro E. rewrite paths_license. unfold license. change (s "MODULE_LICENSE_INSTALL_DIR") with license_directory. rewrite path_unset by now rewrite directories_license. destruct w; [reflexivity|]. unfold expand.
  rewrite (paths_directory keep ab false v (s "MODULE_DATA_INSTALL_DIR") (s "share/")) by (cbn; auto).
  rewrite (directories_other keep ab v (s "MODULE_NAME")); [reflexivity|]. cbn [map documented_directories fst In]. intros [H|[H|[H|[H|[]]]]]; discriminate H.
Qed.
Lemma common_key x c : In (x, c) common_names -> existsb (str_eqb x) (map snd common_names) = false.
Proof.
  intro I. assert (K : In x (map fst common_names)) by (apply in_map_iff; exists (x, c); auto). clear I.
  assert (F : forallb (fun x => negb (existsb (str_eqb x) (map snd common_names))) (map fst common_names) = true) by (vm_compute; reflexivity).
  rewrite forallb_forall in F. specialize (F x K). now apply Bool.negb_true_iff in F.
Qed.
Lemma common_paths keep ab w v x c t : In (x, c) common_names -> value (paths keep ab w v) x = Some t -> plain t -> value (paths keep ab w v) c = Some t.
Proof.
  unfold paths. generalize (license keep ab w (directories keep ab v)). intros u I E P. apply (common_lemma u x c t I); [|exact P]. rewrite <- E. symmetry. apply common_other. apply not_common. exact (common_key x c I).
Qed.
Lemma rest_lemma keep ab w v x : ~ In x (license_directory :: map fst documented_directories) -> ~ In x (map snd common_names) -> value (paths keep ab w v) x = value v x.
Proof.
  intros A B. unfold paths. rewrite (common_other _ x B). unfold license. rewrite path_other by (intros ->; apply A; now left). apply directories_other. intro I. apply A. now right.
Qed.
(** a second package of the same build, or a second run *)
Lemma again_kept keep ab p m t : value p license_directory = Some t -> ~ false_text t -> value (paths keep ab false (set_text p (s "MODULE_NAME") m)) license_directory = Some t.
Proof.
  intros E F. assert (U : value (set_text p (s "MODULE_NAME") m) license_directory = Some t) by (rewrite other_text by discriminate; exact E).
  rewrite (given_lemma keep ab false _ license_directory); [exact U|now left|]. exists t. auto.
Qed.
Lemma first_license keep ab v n : value v license_directory = None -> value v (s "MODULE_DATA_INSTALL_DIR") = None -> value v (s "MODULE_NAME") = Some n ->
  value (paths keep ab false v) license_directory = Some (s "share//" ++ n).
Proof.
  intros E D N. pose proof (default_lemma keep ab false v (s "MODULE_DATA_INSTALL_DIR") (s "share/") (or_intror (or_intror (or_intror (or_introl eq_refl)))) D) as D'.
  pose proof (license_lemma keep ab false v E) as L. rewrite L. unfold expand. rewrite D', N. reflexivity.
Qed.
Lemma again_lemma keep ab v n m : value v license_directory = None -> value v (s "MODULE_DATA_INSTALL_DIR") = None -> value v (s "MODULE_NAME") = Some n -> ~ false_text (s "share//" ++ n) ->
  value (paths keep ab false (set_text (paths keep ab false v) (s "MODULE_NAME") m)) license_directory = Some (s "share//" ++ n).
Proof. intros E D N F. apply again_kept; [now apply first_license|exact F]. Qed.
