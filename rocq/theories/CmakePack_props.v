(** C160: packaging. *)
From Verif Require Import Cmake_spec CmakeOpt_model CmakeOpt_spec CmakeSet_model CmakeSet_spec CmakeSet_proofs CmakeProj_model CmakeProj_spec CmakeProj_proofs CmakeProj_props CmakePack_model CmakePack_spec CmakePack_proofs.

(** C160. The name and the version of the package are those of the project and of the module. *)
Theorem C160_stated : forall msvc v v' l c x t, packaging msvc v = Some (v', l) -> In (c, x) stated -> value v x = Some t -> CmakeSet_spec.plain t -> value v' c = Some t.
Proof. exact stated_lemma. Qed.
Print Assumptions C160_stated.
(** C160. The version of the package is that of the version file from which it is configured. *)
Theorem C160_configured : forall b dir v v1 file p t x y z msvc v' l, configure_project b dir v = Some v1 -> settings b (settings_of dir) = Some file -> (forall q, In q (whole :: version_string :: numbers) -> gives_not file v q) ->
  value v1 (s "MODULE_VERSION_FILE_PATH") = Some p -> CmakeSet_spec.plain p -> text b p = Some t -> ~ In ";"%char t ->
  Cmake_spec.says t (s "VERSION_MAJOR ") x -> Cmake_spec.says t (s "VERSION_MINOR ") y -> Cmake_spec.says t (s "VERSION_PATCH ") z -> x <> [] -> y <> [] -> z <> [] ->
  packaging msvc v1 = Some (v', l) ->
  value v' (s "CPACK_PACKAGE_VERSION") = Some (dotted x y z) /\ value v' (s "CPACK_PACKAGE_VERSION_MAJOR") = Some x /\ value v' (s "CPACK_PACKAGE_VERSION_MINOR") = Some y /\ value v' (s "CPACK_PACKAGE_VERSION_PATCH") = Some z.
Proof. exact configured_lemma. Qed.
Print Assumptions C160_configured.
(** C160. The summary and the description are those of the project.  Missing: that they are those of the module. *)
Theorem C160_summary_partial : forall msvc v v' l n t, packaging msvc v = Some (v', l) -> value v (s "PROJECT_NAME") = Some n -> CmakeSet_spec.plain n -> ~ of_cpack (n ++ s "_DESCRIPTION_SUMMARY") ->
  value v (n ++ s "_DESCRIPTION_SUMMARY") = Some t -> value v' (s "CPACK_PACKAGE_DESCRIPTION_SUMMARY") = Some (n ++ s " - " ++ t).
Proof. exact summary_lemma. Qed.
Print Assumptions C160_summary_partial.
Theorem C160_description : forall msvc v v' l n t, packaging msvc v = Some (v', l) -> value v (s "PROJECT_NAME") = Some n -> ~ of_cpack (n ++ s "_DESCRIPTION") -> value v (n ++ s "_DESCRIPTION") = Some t ->
  value v' (s "CPACK_PACKAGE_DESCRIPTION") = Some t.
Proof. exact description_lemma. Qed.
Print Assumptions C160_description.
(** C160. The license is installed in its directory. *)
Theorem C160_license : forall msvc v v' l f d, packaging msvc v = Some (v', l) -> value v (s "MODULE_LICENSE_FILE_PATH") = Some f -> CmakeSet_spec.plain f ->
  value v (s "MODULE_LICENSE_INSTALL_DIR") = Some d -> CmakeSet_spec.plain d -> In (install_file f d (s "licenses")) l.
Proof. exact license_lemma. Qed.
Print Assumptions C160_license.
(** C160. No directory is installed if no resources are given; otherwise that of the resources is, in the one for data. *)
Theorem C160_no_resources : forall msvc v v' l i, packaging msvc v = Some (v', l) -> value v (s "MODULE_RESOURCES_PATH") = None -> In i l -> exists r, i = s "FILES" :: r.
Proof. exact no_resources_lemma. Qed.
Print Assumptions C160_no_resources.
Theorem C160_resources_partial : forall msvc v v' l src data p, packaging msvc v = Some (v', l) -> value v (s "MODULE_RESOURCES_PATH") = Some p -> CmakeSet_spec.plain p ->
  value v (s "PROJECT_SOURCE_DIR") = Some src -> ~ In ";"%char src -> value v (s "DATA_INSTALL_DIR") = Some data -> ~ In ";"%char data ->
  In (install_directory (src ++ s "/" ++ p ++ s "/") (data ++ s "/resources/")) l.
Proof. exact resources_lemma. Qed.
Print Assumptions C160_resources_partial.
Theorem C160_accepted : forall msvc v, (forall p, value v (s "MODULE_RESOURCES_PATH") = Some p -> CmakeSet_spec.plain p) -> exists v' l, packaging msvc v = Some (v', l).
Proof. exact accepted_lemma. Qed.
Print Assumptions C160_accepted.
(** C160. Only variables of CPack change. *)
Theorem C160_rest : forall msvc v v' l x, packaging msvc v = Some (v', l) -> ~ of_cpack x -> value v' x = value v x.
Proof. exact rest_lemma. Qed.
Print Assumptions C160_rest.

Definition scope_of (l : list (str * str)) : vars := {| normal := fun x => option_map snd (List.find (fun c => str_eqb x (fst c)) l); cached := fun _ => None |}.
Definition tools_scope (resources : str) : vars := scope_of [(s "PROJECT_NAME", s "tools"); (s "PROJECT_SOURCE_DIR", s "/src/tools"); (s "MODULE_VERSION_MAJOR", s "1"); (s "MODULE_VERSION_MINOR", s "5"); (s "MODULE_VERSION_PATCH", s "1");
  (s "MODULE_VERSION", s "1.5.1"); (s "MODULE_SUMMARY", s "Tools for all"); (s "tools_DESCRIPTION", s "All the tools"); (s "MODULE_LICENSE_FILE_PATH", s "/src/LICENSE"); (s "MODULE_LICENSE_INSTALL_DIR", s "share//tools");
  (s "DATA_INSTALL_DIR", s "share/"); (s "MODULE_RESOURCES_PATH", resources)].
Definition told (o : option (vars * list (list str))) (l : list str) : list (option str) * list (list str) := match o with Some r => (map (value (fst r)) l, snd r) | None => ([], []) end.
Example C160_nonvacuous : told (packaging true (tools_scope (s "images"))) [s "CPACK_PACKAGE_NAME"; s "CPACK_PACKAGE_VERSION"; s "CPACK_PACKAGE_VERSION_MINOR"; s "CPACK_PACKAGE_DESCRIPTION"; s "CPACK_COMPONENTS_ALL"; s "MODULE_VERSION"] =
  ([Some (s "tools"); Some (s "1.5.1"); Some (s "5"); Some (s "All the tools"); Some (s "headers;libraries_;cmake"); Some (s "1.5.1")],
   [install_file (s "/src/LICENSE") (s "share//tools") (s "licenses"); install_directory (s "/src/tools/images/") (s "share//resources/")]).
Proof. vm_compute. reflexivity. Qed.
Example C160_hypotheses_nonvacuous : CmakeSet_spec.plain (s "tools") /\ ~ of_cpack (s "tools" ++ s "_DESCRIPTION") /\ ~ of_cpack (s "MODULE_VERSION") /\ of_cpack (s "CPACK_PACKAGE_NAME").
Proof. split; [split; [discriminate|intro I; apply (in_dec_false I); reflexivity]|]. split; [|split]; [intros (r & E); discriminate E|intros (r & E); discriminate E|exists (s "PACKAGE_NAME"); reflexivity]. Qed.
Example C160_configured_nonvacuous : match configure_project (two tools_file []) (s "/src/a") fresh_scope with Some v1 => fst (told (packaging false v1) [s "CPACK_PACKAGE_VERSION"; s "CPACK_PACKAGE_VERSION_PATCH"]) | None => [] end = [Some (s "1.5.1"); Some (s "1")].
Proof. vm_compute. reflexivity. Qed.

(** C160. Refuted: the summary of the package is that of the module; it is empty. *)
Theorem C160_summary_refuted : exists v v' l t, packaging false v = Some (v', l) /\ value v (s "MODULE_SUMMARY") = Some t /\ t <> [] /\ value v' (s "CPACK_PACKAGE_DESCRIPTION_SUMMARY") = Some (s "tools - ").
Proof.
  assert (E : fst (told (packaging false (tools_scope (s "images"))) [s "CPACK_PACKAGE_DESCRIPTION_SUMMARY"]) = [Some (s "tools - ")]) by (vm_compute; reflexivity).
  destruct (packaging false (tools_scope (s "images"))) as [(v', l)|] eqn:P; [|discriminate E]. exists (tools_scope (s "images")), v', l, (s "Tools for all"). split; [exact P|]. split; [vm_compute; reflexivity|]. split; [discriminate|].
  exact (f_equal (fun q => hd None q) E).
Qed.
Print Assumptions C160_summary_refuted.
(** C160. Refuted: the documentation calls the variable the path of the resources, and an absolute path is one; another directory is installed. *)
Theorem C160_absolute_refuted : exists v v' l p, packaging false v = Some (v', l) /\ value v (s "MODULE_RESOURCES_PATH") = Some p /\ (exists r, p = s "/" ++ r) /\
  forall from to, In (install_directory from to) l -> from = s "/src/tools" ++ s "/" ++ p ++ s "/".
Proof.
  assert (E : snd (told (packaging false (tools_scope (s "/src/images"))) []) = [install_file (s "/src/LICENSE") (s "share//tools") (s "licenses"); install_directory (s "/src/tools//src/images/") (s "share//resources/")]) by (vm_compute; reflexivity).
  destruct (packaging false (tools_scope (s "/src/images"))) as [(v', l)|] eqn:P; [|discriminate E]. cbn [told snd] in E. exists (tools_scope (s "/src/images")), v', l, (s "/src/images"). split; [exact P|]. split; [vm_compute; reflexivity|].
  split; [exists (s "src/images"); reflexivity|]. intros from to I. rewrite E in I. destruct I as [I|[I|[]]].
  - apply (f_equal (fun q => hd [] q)) in I. discriminate I.
  - apply (f_equal (fun q => nth 1 q [])) in I. symmetry. exact I.
Qed.
Print Assumptions C160_absolute_refuted.
(** C160. Refuted: resources of an empty path: CMake stops; and with two paths the second one is where the first is installed, and is not installed itself. *)
Theorem C160_empty_refuted : packaging false (tools_scope []) = None.
Proof. unfold packaging. rewrite cpack_steps. vm_compute. reflexivity. Qed.
Print Assumptions C160_empty_refuted.
Theorem C160_two_refuted : snd (told (packaging false (tools_scope (s "images;data"))) []) = [install_file (s "/src/LICENSE") (s "share//tools") (s "licenses"); install_directory (s "/src/tools/images/") (s "share//data/")].
Proof. vm_compute. reflexivity. Qed.
Print Assumptions C160_two_refuted.
