From Verif Require Import Cmake_model CmakeOpt_model CmakeOpt_spec CmakeOpt_proofs CmakeSet_model CmakeSet_spec CmakeSet_proofs CmakeInstall_proofs CmakeProj_model CmakeProj_spec CmakeProj_proofs CmakePack_model CmakePack_spec.
From Coq Require Import Lia.

Definition packs : list str := [s "CPACK_COMPONENT_LICENSES_HIDDEN"; s "CPACK_COMPONENTS_ALL"; s "CPACK_PACKAGE_NAME"; s "CPACK_PACKAGE_DESCRIPTION_SUMMARY"; s "CPACK_PACKAGE_DESCRIPTION"; s "CPACK_PACKAGE_VENDOR";
  s "CPACK_PACKAGE_CONTACT"; s "CPACK_PACKAGE_VERSION_MAJOR"; s "CPACK_PACKAGE_VERSION_MINOR"; s "CPACK_PACKAGE_VERSION_PATCH"; s "CPACK_PACKAGE_VERSION"; s "CPACK_COMPONENT_CMAKE_HIDDEN"].
Lemma yes_in x l : existsb (str_eqb x) l = true -> In x l.
Proof. intro H. apply existsb_exists in H. destruct H as (y & I & E). apply Str_proofs.str_eqb_eq in E. subst y. exact I. Qed.
Lemma text_other v x t y : y <> x -> value (set_text v x t) y = value v y.
Proof. intro H. rewrite value_text. destruct (str_eqb y x) eqn:E; [apply Str_proofs.str_eqb_eq in E; contradiction|reflexivity]. Qed.
Lemma text_same v x t : value (set_text v x t) x = Some t.
Proof. rewrite value_text, Str_proofs.str_eqb_refl. reflexivity. Qed.
Lemma component_other t v y : y <> s "CPACK_COMPONENTS_ALL" -> value (component t v) y = value v y.
Proof. intro H. apply text_other. exact H. Qed.
Lemma components_other msvc v x : x <> s "CPACK_COMPONENTS_ALL" -> x <> s "CPACK_COMPONENT_LICENSES_HIDDEN" -> value (components msvc v) x = value v x.
Proof. intros A B. unfold components. cbv zeta. destruct msvc; [rewrite component_other by exact A|]; rewrite text_other by exact A; apply text_other; exact B. Qed.
Lemma summary_other v x : x <> s "CPACK_PACKAGE_DESCRIPTION_SUMMARY" -> value (summary v) x = value v x.
Proof. intro H. apply text_other. exact H. Qed.
Lemma description_other v x : x <> s "CPACK_PACKAGE_DESCRIPTION" -> value (description v) x = value v x.
Proof. intro H. apply text_other. exact H. Qed.
Lemma versions_other v x : x <> s "CPACK_PACKAGE_VERSION_MAJOR" -> x <> s "CPACK_PACKAGE_VERSION_MINOR" -> x <> s "CPACK_PACKAGE_VERSION_PATCH" -> x <> s "CPACK_PACKAGE_VERSION" -> value (versions v) x = value v x.
Proof. intros A B C D. unfold versions. rewrite (value_from_other _ _ _ x D), (value_from_other _ _ _ x C), (value_from_other _ _ _ x B). exact (value_from_other _ _ _ x A). Qed.
Definition named (msvc : bool) (v : vars) : vars := set_from (components msvc v) (s "CPACK_PACKAGE_NAME") (s "PROJECT_NAME").
Definition contacts (v : vars) : vars := set_text (set_text v (s "CPACK_PACKAGE_VENDOR") (s "eProsima")) (s "CPACK_PACKAGE_CONTACT") (s "eProsima Support <support@eprosima.com>").
Definition final (v : vars) : vars := component (s "cmake") (set_text v (s "CPACK_COMPONENT_CMAKE_HIDDEN") (s "1")).
Lemma contacts_other v x : x <> s "CPACK_PACKAGE_VENDOR" -> x <> s "CPACK_PACKAGE_CONTACT" -> value (contacts v) x = value v x.
Proof. intros A B. unfold contacts. rewrite (text_other _ _ _ x B). exact (text_other _ _ _ x A). Qed.
Lemma final_other v x : x <> s "CPACK_COMPONENTS_ALL" -> x <> s "CPACK_COMPONENT_CMAKE_HIDDEN" -> value (final v) x = value v x.
Proof. intros A B. unfold final. rewrite (component_other _ _ x A). exact (text_other _ _ _ x B). Qed.
Lemma named_other msvc v x : x <> s "CPACK_PACKAGE_NAME" -> x <> s "CPACK_COMPONENTS_ALL" -> x <> s "CPACK_COMPONENT_LICENSES_HIDDEN" -> value (named msvc v) x = value v x.
Proof. intros A B C. unfold named. rewrite (value_from_other _ _ _ x A). exact (components_other msvc v x B C). Qed.
Lemma cpack_steps msvc v : cpack msvc v = final (versions (contacts (description (summary (named msvc v))))).
Proof. unfold cpack, final, contacts, named. reflexivity. Qed.
Lemma cpack_other msvc v x : ~ In x packs -> value (cpack msvc v) x = value v x.
Proof.
  intro N. assert (H : forall y, In y packs -> x <> y) by (intros y I ->; contradiction). rewrite cpack_steps.
  rewrite final_other by (apply H; apply yes_in; vm_compute; reflexivity). rewrite versions_other by (apply H; apply yes_in; vm_compute; reflexivity). rewrite contacts_other by (apply H; apply yes_in; vm_compute; reflexivity).
  rewrite description_other by (apply H; apply yes_in; vm_compute; reflexivity). rewrite summary_other by (apply H; apply yes_in; vm_compute; reflexivity). apply named_other; apply H; apply yes_in; vm_compute; reflexivity.
Qed.
Lemma packs_cpack x : In x packs -> of_cpack x.
Proof.
  unfold packs. cbn [In]. intros [<-|[<-|[<-|[<-|[<-|[<-|[<-|[<-|[<-|[<-|[<-|[<-|[]]]]]]]]]]]]]; eexists; vm_compute; reflexivity.
Qed.
Lemma rest_lemma msvc v v' l x : packaging msvc v = Some (v', l) -> ~ of_cpack x -> value v' x = value v x.
Proof.
  unfold packaging. intros H N. destruct (resources (cpack msvc v)) as [r|]; [|discriminate]. cbn [option_map] in H. apply some_inj in H. apply (f_equal fst) in H. cbn [fst] in H. subst v'.
  apply cpack_other. intro I. apply N. exact (packs_cpack x I).
Qed.
Lemma packaged_lemma msvc v v' l : packaging msvc v = Some (v', l) -> v' = cpack msvc v /\ exists r, resources (cpack msvc v) = Some r /\ l = install_license v :: r.
Proof.
  unfold packaging. intro H. destruct (resources (cpack msvc v)) as [r|]; [|discriminate]. cbn [option_map] in H. apply some_inj in H. split; [exact (eq_sym (f_equal fst H))|]. exists r. split; [reflexivity|exact (eq_sym (f_equal snd H))].
Qed.
Ltac differ := let E := fresh in intro E; discriminate E.
Ltac beside := repeat match goal with
  | |- value (final _) _ = _ => rewrite final_other by differ
  | |- value (versions _) _ = _ => rewrite versions_other by differ
  | |- value (contacts _) _ = _ => rewrite contacts_other by differ
  | |- value (description _) _ = _ => rewrite description_other by differ
  | |- value (summary _) _ = _ => rewrite summary_other by differ
  | |- value (named _ _) _ = _ => rewrite named_other by differ
  | |- value (components _ _) _ = _ => rewrite components_other by differ
  | |- value (set_from _ _ _) _ = _ => rewrite value_from_other by differ
  end.
Lemma stated_lemma msvc v v' l c x t : packaging msvc v = Some (v', l) -> In (c, x) stated -> value v x = Some t -> plain t -> value v' c = Some t.
Proof.
  intros H I V P. apply packaged_lemma in H. destruct H as (-> & _). rewrite cpack_steps. unfold stated in I. cbn [In] in I.
  destruct I as [I|[I|[I|[I|[I|[]]]]]]; pose proof (f_equal fst I) as A; pose proof (f_equal snd I) as B; cbn [fst snd] in A, B; subst c x; beside.
  - unfold named. apply from_plain; [|exact P]. beside. exact V.
  - unfold versions. apply from_plain; [|exact P]. beside. exact V.
  - unfold versions. beside. apply from_plain; [|exact P]. beside. exact V.
  - unfold versions. beside. apply from_plain; [|exact P]. beside. exact V.
  - unfold versions. beside. apply from_plain; [|exact P]. beside. exact V.
Qed.
Lemma expand_value v x t : value v x = Some t -> expand v x = t.
Proof. intro H. unfold expand. rewrite H. reflexivity. Qed.
Lemma early msvc v x : ~ of_cpack x -> value (named msvc v) x = value v x.
Proof. intro N. assert (K : forall y, In y packs -> x <> y) by (intros y I ->; exact (N (packs_cpack y I))). apply named_other; apply K; apply yes_in; vm_compute; reflexivity. Qed.
Lemma name_early msvc v n : value v (s "PROJECT_NAME") = Some n -> value (named msvc v) (s "PROJECT_NAME") = Some n.
Proof. intro N. beside. exact N. Qed.
Lemma summary_lemma msvc v v' l n t : packaging msvc v = Some (v', l) -> value v (s "PROJECT_NAME") = Some n -> plain n -> ~ of_cpack (n ++ s "_DESCRIPTION_SUMMARY") -> value v (n ++ s "_DESCRIPTION_SUMMARY") = Some t ->
  value v' (s "CPACK_PACKAGE_DESCRIPTION_SUMMARY") = Some (n ++ s " - " ++ t).
Proof.
  intros H N P K V. apply packaged_lemma in H. destruct H as (-> & _). rewrite cpack_steps. beside. unfold summary. rewrite text_same. f_equal.
  rewrite (expand_value _ (s "PROJECT_NAME") n (name_early msvc v n N)). rewrite (expand_value _ (n ++ s "_DESCRIPTION_SUMMARY") t) by (rewrite early; assumption).
  rewrite (expand_value _ (s "CPACK_PACKAGE_NAME") n); [reflexivity|]. unfold named. apply from_plain; [|exact P]. beside. exact N.
Qed.
Lemma description_lemma msvc v v' l n t : packaging msvc v = Some (v', l) -> value v (s "PROJECT_NAME") = Some n -> ~ of_cpack (n ++ s "_DESCRIPTION") -> value v (n ++ s "_DESCRIPTION") = Some t ->
  value v' (s "CPACK_PACKAGE_DESCRIPTION") = Some t.
Proof.
  intros H N K V. apply packaged_lemma in H. destruct H as (-> & _). rewrite cpack_steps. beside. unfold description. rewrite text_same. f_equal.
  rewrite (expand_value (summary (named msvc v)) (s "PROJECT_NAME") n) by (beside; exact N). apply expand_value. rewrite summary_other; [rewrite early; assumption|].
  intro E. apply K. rewrite E. apply packs_cpack. apply yes_in. vm_compute. reflexivity.
Qed.
Lemma license_lemma msvc v v' l f d : packaging msvc v = Some (v', l) -> value v (s "MODULE_LICENSE_FILE_PATH") = Some f -> plain f -> value v (s "MODULE_LICENSE_INSTALL_DIR") = Some d -> plain d ->
  In (install_file f d (s "licenses")) l.
Proof.
  intros H F PF D PD. apply packaged_lemma in H. destruct H as (_ & r & _ & ->). left. unfold install_license. rewrite (expand_value _ _ _ F), (expand_value _ _ _ D), (plain_arguments f PF), (plain_arguments d PD). reflexivity.
Qed.
Lemma resources_none v : value v (s "MODULE_RESOURCES_PATH") = None -> resources v = Some [].
Proof. intro N. unfold resources, defined. rewrite N. reflexivity. Qed.
Lemma resources_some v p : value v (s "MODULE_RESOURCES_PATH") = Some p -> plain p -> resources v = Some [install_resources v p (s "resources")].
Proof. intros N P. unfold resources, defined. rewrite (expand_value v _ p N), (plain_arguments p P), N. reflexivity. Qed.
Lemma path_apart : existsb (str_eqb (s "MODULE_RESOURCES_PATH")) packs = false.
Proof. vm_compute. reflexivity. Qed.
Lemma no_resources_lemma msvc v v' l i : packaging msvc v = Some (v', l) -> value v (s "MODULE_RESOURCES_PATH") = None -> In i l -> exists r, i = s "FILES" :: r.
Proof.
  intros H N I. apply packaged_lemma in H. destruct H as (_ & r & R & ->). rewrite resources_none in R by (rewrite (cpack_other msvc v _ (not_in _ _ path_apart)); exact N). apply some_inj in R. subst r.
  destruct I as [<-|[]]. exists (tl (install_license v)). reflexivity.
Qed.
Lemma joined_plain a b : ~ In ";"%char a -> plain b -> plain (a ++ s "/" ++ b ++ s "/").
Proof.
  intros A (_ & B). split; [intro E; apply (f_equal (@length ascii)) in E; rewrite !app_length in E; cbn in E; lia|]. rewrite !in_app_iff. intros [I|[I|[I|I]]]; [exact (A I)| |exact (B I)|]; apply (in_dec_false I); reflexivity.
Qed.
Lemma resources_lemma msvc v v' l src data p : packaging msvc v = Some (v', l) -> value v (s "MODULE_RESOURCES_PATH") = Some p -> plain p -> value v (s "PROJECT_SOURCE_DIR") = Some src -> ~ In ";"%char src ->
  value v (s "DATA_INSTALL_DIR") = Some data -> ~ In ";"%char data -> In (install_directory (src ++ s "/" ++ p ++ s "/") (data ++ s "/resources/")) l.
Proof.
  intros H R PR S0 PS D PD. apply packaged_lemma in H. destruct H as (_ & r & E & ->). right.
  rewrite (resources_some _ p) in E; [|rewrite (cpack_other msvc v _ (not_in _ _ path_apart)); exact R|exact PR]. apply some_inj in E. subst r. left. unfold install_resources.
  assert (A : existsb (str_eqb (s "PROJECT_SOURCE_DIR")) packs = false) by (vm_compute; reflexivity). assert (B : existsb (str_eqb (s "DATA_INSTALL_DIR")) packs = false) by (vm_compute; reflexivity).
  rewrite (expand_value (cpack msvc v) (s "PROJECT_SOURCE_DIR") src) by (rewrite (cpack_other msvc v _ (not_in _ _ A)); exact S0).
  rewrite (expand_value (cpack msvc v) (s "DATA_INSTALL_DIR") data) by (rewrite (cpack_other msvc v _ (not_in _ _ B)); exact D).
  rewrite (plain_arguments _ (joined_plain src p PS PR)). assert (Q : plain (s "resources")) by (split; [discriminate|intro I; apply (in_dec_false I); reflexivity]). rewrite (plain_arguments _ (joined_plain data (s "resources") PD Q)).
  reflexivity.
Qed.
Lemma accepted_lemma msvc v : (forall p, value v (s "MODULE_RESOURCES_PATH") = Some p -> plain p) -> exists v' l, packaging msvc v = Some (v', l).
Proof.
  intro H. unfold packaging. pose proof (cpack_other msvc v _ (not_in _ _ path_apart)) as C. destruct (value v (s "MODULE_RESOURCES_PATH")) as [p|].
  - rewrite (resources_some _ p C (H p eq_refl)). eexists. eexists. reflexivity.
  - rewrite (resources_none _ C). eexists. eexists. reflexivity.
Qed.
Lemma digits_plain x : Forall Cmake_spec.digit x -> ~ In ";"%char x.
Proof. intros F I. rewrite Forall_forall in F. specialize (F _ I). unfold Cmake_spec.digit in F. cbv in F. lia. Qed.
Lemma says_plain t k x : Cmake_spec.says t k x -> x <> [] -> plain x.
Proof. intros (a & b & _ & _ & F & _) N. split; [exact N|exact (digits_plain x F)]. Qed.
Lemma dotted_plain x y z : plain x -> plain y -> plain z -> plain (Cmake_spec.dotted x y z).
Proof.
  intros (N & X) (_ & Y) (_ & Z0). split; [intro E; apply N; unfold Cmake_spec.dotted in E; destruct x; [reflexivity|discriminate E]|]. unfold Cmake_spec.dotted. rewrite !in_app_iff.
  intros [I|[I|[I|[I|I]]]]; [exact (X I)| |exact (Y I)| |exact (Z0 I)]; apply (in_dec_false I); reflexivity.
Qed.
Lemma configured_lemma b dir v v1 file p t x y z msvc v' l : configure_project b dir v = Some v1 -> settings b (settings_of dir) = Some file -> (forall q, In q (whole :: version_string :: numbers) -> gives_not file v q) ->
  value v1 (s "MODULE_VERSION_FILE_PATH") = Some p -> plain p -> text b p = Some t -> ~ In ";"%char t ->
  Cmake_spec.says t (s "VERSION_MAJOR ") x -> Cmake_spec.says t (s "VERSION_MINOR ") y -> Cmake_spec.says t (s "VERSION_PATCH ") z -> x <> [] -> y <> [] -> z <> [] ->
  packaging msvc v1 = Some (v', l) ->
  value v' (s "CPACK_PACKAGE_VERSION") = Some (Cmake_spec.dotted x y z) /\ value v' (s "CPACK_PACKAGE_VERSION_MAJOR") = Some x /\ value v' (s "CPACK_PACKAGE_VERSION_MINOR") = Some y /\ value v' (s "CPACK_PACKAGE_VERSION_PATCH") = Some z.
Proof.
  intros C F G P PP T NT X Y Z0 Nx Ny Nz K. destruct (read_version_lemma b dir v v1 file p t x y z C F G P PP T NT X Y Z0 Nx Ny Nz) as (V1 & V2 & V3 & V4 & _).
  pose proof (says_plain _ _ _ X Nx) as PX. pose proof (says_plain _ _ _ Y Ny) as PY. pose proof (says_plain _ _ _ Z0 Nz) as PZ. split; [|split; [|split]].
  - apply (stated_lemma msvc v1 v' l _ (s "MODULE_VERSION") _ K); [right; left; reflexivity|exact V4|exact (dotted_plain _ _ _ PX PY PZ)].
  - apply (stated_lemma msvc v1 v' l _ (s "MODULE_VERSION_MAJOR") _ K); [right; right; left; reflexivity|exact V1|exact PX].
  - apply (stated_lemma msvc v1 v' l _ (s "MODULE_VERSION_MINOR") _ K); [right; right; right; left; reflexivity|exact V2|exact PY].
  - apply (stated_lemma msvc v1 v' l _ (s "MODULE_VERSION_PATCH") _ K); [right; right; right; right; left; reflexivity|exact V3|exact PZ].
Qed.
