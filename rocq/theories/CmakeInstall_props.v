(** C150: the installation directories. *)
From Verif Require Import CmakeOpt_model CmakeSet_model CmakeSet_spec CmakeSet_proofs CmakeCpp_spec CmakeCpp_proofs CmakeInstall_model CmakeInstall_spec CmakeInstall_proofs.

(** a directory that is given stays *)
Theorem C150_given : forall keep ab win32 v x,
  In x (license_directory :: map fst documented_directories) -> enabled v x -> value (paths keep ab win32 v) x = value v x.
Proof. exact given_lemma. Qed.
Print Assumptions C150_given.
(** one that is not has its documented default *)
Theorem C150_default : forall keep ab win32 v x t, In (x, t) documented_directories -> value v x = None -> value (paths keep ab win32 v) x = Some t.
Proof. exact default_lemma. Qed.
Print Assumptions C150_default.
(** the license goes to a directory of the package in the one for data *)
Theorem C150_license_partial : forall keep ab win32 v, value v license_directory = None ->
  value (paths keep ab win32 v) license_directory =
  Some (if win32 then s "." else expand (paths keep ab win32 v) (s "MODULE_DATA_INSTALL_DIR") ++ s "/" ++ expand v (s "MODULE_NAME")).
Proof. exact license_lemma. Qed.
Print Assumptions C150_license_partial.
(** the common names are those directories *)
Theorem C150_common : forall keep ab win32 v x c t, In (x, c) common_names -> value (paths keep ab win32 v) x = Some t -> plain t -> value (paths keep ab win32 v) c = Some t.
Proof. exact common_paths. Qed.
Print Assumptions C150_common.
Theorem C150_rest : forall keep ab win32 v x,
  ~ In x (license_directory :: map fst documented_directories) -> ~ In x (map snd common_names) -> value (paths keep ab win32 v) x = value v x.
Proof. exact rest_lemma. Qed.
Print Assumptions C150_rest.
(** a second package of the same build has the license directory of the first *)
Theorem C150_second_package : forall keep ab v n m,
  value v license_directory = None -> value v (s "MODULE_DATA_INSTALL_DIR") = None -> value v (s "MODULE_NAME") = Some n -> ~ false_text (s "share//" ++ n) ->
  value (paths keep ab false (set_text (paths keep ab false v) (s "MODULE_NAME") m)) license_directory = Some (s "share//" ++ n).
Proof. exact again_lemma. Qed.
Print Assumptions C150_second_package.

Definition package (l : list (str * string)) : vars := {| normal := fun x => option_map (fun c => s (snd c)) (List.find (fun c => str_eqb x (fst c)) l); cached := fun _ => None |}.
Definition tools : vars := package [(s "MODULE_NAME", "tools"%string); (s "MODULE_LIB_INSTALL_DIR", "lib64"%string)].
Example C150_nonvacuous :
  map (value (paths true (fun t => t) false tools)) [s "MODULE_BIN_INSTALL_DIR"; s "LIB_INSTALL_DIR"; s "DATA_INSTALL_DIR"; s "LICENSE_INSTALL_DIR"] =
    [Some (s "bin/"); Some (s "lib64"); Some (s "share/"); Some (s "share//tools")] /\
  enabled tools (s "MODULE_LIB_INSTALL_DIR") /\ plain (s "lib64") /\ ~ false_text (s "share//tools").
Proof.
  split; [vm_compute; reflexivity|]. split; [apply truthy_enabled; vm_compute; reflexivity|]. split.
  - split; [discriminate|]. intro I. apply (in_dec_false I). reflexivity.
  - intro F. apply off_false in F. vm_compute in F. discriminate.
Qed.
(** the documentation says that the default of the license directory is share/ *)
Theorem C150_license_refuted : ~ forall keep ab win32 v, value v license_directory = None -> value (paths keep ab win32 v) license_directory = Some (s "share/").
Proof.
  intro H. assert (E : value (paths true (fun t => t) false tools) license_directory = Some (s "share//tools")) by (vm_compute; reflexivity).
  rewrite (H true (fun t => t) false tools eq_refl) in E. apply some_inj in E. discriminate E.
Qed.
Print Assumptions C150_license_refuted.
(** the license of a package of which no license directory is given does not always go to a directory of that package *)
Theorem C150_second_refuted : ~ forall keep ab v n m, value v license_directory = None -> value v (s "MODULE_NAME") = Some n ->
  value (paths keep ab false (set_text (paths keep ab false v) (s "MODULE_NAME") m)) license_directory =
  Some (expand (paths keep ab false v) (s "MODULE_DATA_INSTALL_DIR") ++ s "/" ++ m).
Proof.
  intro H. specialize (H true (fun t => t) tools (s "tools") (s "other") eq_refl eq_refl).
  assert (E : value (paths true (fun t => t) false (set_text (paths true (fun t => t) false tools) (s "MODULE_NAME") (s "other"))) license_directory = Some (s "share//tools")) by (vm_compute; reflexivity).
  rewrite E in H. assert (K : expand (paths true (fun t => t) false tools) (s "MODULE_DATA_INSTALL_DIR") ++ s "/" ++ s "other" = s "share//other") by (vm_compute; reflexivity).
  rewrite K in H. apply some_inj in H. discriminate H.
Qed.
Print Assumptions C150_second_refuted.
