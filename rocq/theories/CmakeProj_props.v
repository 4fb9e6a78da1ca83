(** C159: the configuration of a package. *)
From Verif Require Import Cmake_model Cmake_spec Cmake_proofs CmakeOpt_model CmakeOpt_spec CmakeSet_model CmakeSet_spec CmakeSet_proofs CmakeProj_model CmakeProj_spec CmakeProj_proofs.

(** C159. A build in the directory of the sources stops at once. *)
Theorem C159_in_source : forall b dir v, source b = binary b -> configure_project b dir v = None.
Proof. exact in_source_lemma. Qed.
Print Assumptions C159_in_source.
(** C159. What the settings file says holds after the configuration, if it is not false, but for the numbers of the version, LOG_INFO and the names of the directories that are always set. *)
Theorem C159_settings_partial : forall b dir v v' file x t, configure_project b dir v = Some v' -> settings b (settings_of dir) = Some file -> CmakeSet_spec.says file x t -> ~ false_text t ->
  x <> s "LOG_INFO" -> ~ In x shared -> ~ In x numbers -> value v' x = Some t.
Proof. exact settings_lemma. Qed.
Print Assumptions C159_settings_partial.
(** C159. If all the numbers and the version are given, they stay. *)
Theorem C159_given_partial : forall b dir v v' file x t, configure_project b dir v = Some v' -> settings b (settings_of dir) = Some file -> (forall y, In y (whole :: numbers) -> exists u, gives file v y u) ->
  In x (whole :: numbers) -> gives file v x t -> value v' x = Some t.
Proof. exact kept_version. Qed.
Print Assumptions C159_given_partial.
(** C159. If nothing of the version is given, it is that of the version file. *)
Theorem C159_read_partial : forall b dir v v' file p t x y z, configure_project b dir v = Some v' -> settings b (settings_of dir) = Some file -> (forall q, In q (whole :: version_string :: numbers) -> gives_not file v q) ->
  value v' (s "MODULE_VERSION_FILE_PATH") = Some p -> CmakeSet_spec.plain p -> text b p = Some t -> ~ In ";"%char t ->
  Cmake_spec.says t (s "VERSION_MAJOR ") x -> Cmake_spec.says t (s "VERSION_MINOR ") y -> Cmake_spec.says t (s "VERSION_PATCH ") z -> x <> [] -> y <> [] -> z <> [] ->
  value v' major = Some x /\ value v' minor = Some y /\ value v' patch = Some z /\ value v' whole = Some (dotted x y z) /\ value v' version_string = Some (s "v" ++ dotted x y z).
Proof. exact read_version_lemma. Qed.
Print Assumptions C159_read_partial.
(** C159. The commit is the given one, or else that of the source directory of the build. *)
Theorem C159_commit : forall b dir v v' file, configure_project b dir v = Some v' -> settings b (settings_of dir) = Some file ->
  (forall t, gives file v commit t -> value v' commit = Some t) /\ (gives_not file v commit -> value v' commit = Some (git b (source b))).
Proof. exact commit_lemma. Qed.
Print Assumptions C159_commit.
(** C159. A name and a version file are enough, if the options that are given are ON or OFF. *)
Theorem C159_accepted : forall b dir v file n t, source b <> binary b -> settings b (settings_of dir) = Some file -> CmakeSet_spec.says file (s "MODULE_NAME") n -> CmakeSet_spec.plain n ->
  gives_not file v (s "MODULE_VERSION_FILE_PATH") -> ~ In ";"%char dir -> text b (dir ++ s "/../VERSION") = Some t -> t <> [] -> ~ In ";"%char t ->
  (forall x w, In x [s "BUILD_TESTS"; s "BUILD_DOCS_TESTS"; s "BUILD_ALL"] -> gives file v x w -> w = s "ON" \/ w = s "OFF") -> exists v', configure_project b dir v = Some v'.
Proof. exact accepted_lemma. Qed.
Print Assumptions C159_accepted.

Definition fresh_scope : vars := {| normal := fun _ => None; cached := fun _ => None |}.
(** a build of two packages, of which the second is in a repository of its own *)
Definition two (first second : commands) : build :=
  {| keep := true; absolute := fun t => t; win32 := false; source := s "/src"; binary := s "/build";
     settings := fun p => if str_eqb p (s "/src/a/project_settings.cmake") then Some first else if str_eqb p (s "/other/b/project_settings.cmake") then Some second else None;
     text := fun p => if str_eqb p (s "/src/a/../VERSION") then Some (version_file (s "1") (s "5") (s "1")) else if str_eqb p (s "/other/b/../VERSION") then Some (version_file (s "2") (s "0") (s "7")) else None;
     git := fun d => if str_eqb d (s "/src") then s "75b21" else if str_eqb d (s "/other/b") then s "e90ac" else [] |}.
Definition tools_file : commands := [(s "MODULE_NAME", s "tools")].
Definition values (o : option vars) (l : list str) : list (option str) := match o with Some v => map (value v) l | None => [] end.
Example C159_nonvacuous :
  values (configure_project (two tools_file []) (s "/src/a") fresh_scope) [s "MODULE_NAME"; s "MODULE_MACRO"; major; minor; patch; whole; version_string; commit; s "BUILD_TESTS"; s "BIN_INSTALL_DIR"; s "MODULE_VERSION_FILE_PATH"] =
  [Some (s "tools"); Some (s "TOOLS"); Some (s "1"); Some (s "5"); Some (s "1"); Some (s "1.5.1"); Some (s "v1.5.1"); Some (s "75b21"); Some (s "OFF"); Some (s "bin/"); Some (s "/src/a/../VERSION")].
Proof. vm_compute. reflexivity. Qed.
Example C159_hypotheses_nonvacuous : settings (two tools_file []) (settings_of (s "/src/a")) = Some tools_file /\ CmakeSet_spec.says tools_file (s "MODULE_NAME") (s "tools") /\
  (forall q, In q (whole :: version_string :: numbers) -> gives_not tools_file fresh_scope q) /\ CmakeSet_spec.plain (s "/src/a/../VERSION") /\ gives_not tools_file fresh_scope commit.
Proof.
  split; [reflexivity|]. split; [exists [], []; split; [reflexivity|intros u []]|]. split; [|split].
  - intros q I. unfold numbers in I. cbn [In] in I. split; [|reflexivity]. intros u [E|[]]. apply (f_equal fst) in E. cbn [fst] in E. destruct I as [<-|[<-|[<-|[<-|[<-|[]]]]]]; discriminate E.
  - split; [discriminate|]. intro I. apply (in_dec_false I). vm_compute. reflexivity.
  - split; [|reflexivity]. intros u [E|[]]. apply (f_equal fst) in E. discriminate E.
Qed.

(** C159. Refuted: the documentation says that the numbers of the version are taken from the file if they are not set; a number that is set, by itself, is taken from the file too. *)
Definition four_file : commands := [(s "MODULE_NAME", s "tools"); (major, s "4")].
Theorem C159_number_refuted : exists b dir v v' file x t, configure_project b dir v = Some v' /\ settings b (settings_of dir) = Some file /\ In x numbers /\ gives file v x t /\ value v' x <> Some t.
Proof.
  assert (E : values (configure_project (two four_file []) (s "/src/a") fresh_scope) [major] = [Some (s "1")]) by (vm_compute; reflexivity).
  destruct (configure_project (two four_file []) (s "/src/a") fresh_scope) as [v'|] eqn:C; [|discriminate]. exists (two four_file []), (s "/src/a"), fresh_scope, v', four_file, major, (s "4").
  split; [exact C|]. split; [reflexivity|]. split; [left; reflexivity|]. split; [left; exists [(s "MODULE_NAME", s "tools")], []; split; [reflexivity|intros u []]|].
  cbn [values map] in E. assert (K : value v' major = Some (s "1")) by exact (f_equal (fun l => hd None l) E). rewrite K. intro Q. apply some_inj in Q. discriminate Q.
Qed.
Print Assumptions C159_number_refuted.
(** C159. Refuted: the version is that of the three numbers: not if it alone is given. *)
Definition nine_file : commands := [(s "MODULE_NAME", s "tools"); (whole, s "9.9.9")].
Theorem C159_numbers_refuted : exists b dir v v' x y z w, configure_project b dir v = Some v' /\ value v' major = Some x /\ value v' minor = Some y /\ value v' patch = Some z /\ value v' whole = Some w /\ w <> dotted x y z.
Proof.
  assert (E : values (configure_project (two nine_file []) (s "/src/a") fresh_scope) [major; minor; patch; whole] = [Some (s "1"); Some (s "5"); Some (s "1"); Some (s "9.9.9")]) by (vm_compute; reflexivity).
  destruct (configure_project (two nine_file []) (s "/src/a") fresh_scope) as [v'|] eqn:C; [|discriminate]. exists (two nine_file []), (s "/src/a"), fresh_scope, v', (s "1"), (s "5"), (s "1"), (s "9.9.9").
  cbn [values map] in E. split; [exact C|]. split; [exact (f_equal (fun l => nth 0 l None) E)|]. split; [exact (f_equal (fun l => nth 1 l None) E)|]. split; [exact (f_equal (fun l => nth 2 l None) E)|].
  split; [exact (f_equal (fun l => nth 3 l None) E)|]. discriminate.
Qed.
Print Assumptions C159_numbers_refuted.
(** C159. Refuted: the documentation says that the version string is v and the version: there is none if all the numbers and the version are given. *)
Definition given_file : commands := [(s "MODULE_NAME", s "tools"); (major, s "4"); (minor, s "0"); (patch, s "2"); (whole, s "4.0.2")].
Theorem C159_string_refuted : exists b dir v v' w, configure_project b dir v = Some v' /\ value v' whole = Some w /\ value v' version_string = None.
Proof.
  assert (E : values (configure_project (two given_file []) (s "/src/a") fresh_scope) [whole; version_string] = [Some (s "4.0.2"); None]) by (vm_compute; reflexivity).
  destruct (configure_project (two given_file []) (s "/src/a") fresh_scope) as [v'|] eqn:C; [|discriminate]. exists (two given_file []), (s "/src/a"), fresh_scope, v', (s "4.0.2").
  cbn [values map] in E. split; [exact C|]. split; [exact (f_equal (fun l => nth 0 l None) E)|exact (f_equal (fun l => nth 1 l None) E)].
Qed.
Print Assumptions C159_string_refuted.
(** C159. Refuted: a second package of the same build, in a subdirectory of the first, has the version of its own file, and the commit of its own repository: it has those of the first. *)
Definition other_file : commands := [(s "MODULE_NAME", s "other"); (s "MODULE_VERSION_FILE_PATH", s "/other/b/../VERSION")].
Theorem C159_second_refuted : exists b first second v v1 v2, configure_project b first v = Some v1 /\ configure_project b second v1 = Some v2 /\
  value v2 (s "MODULE_NAME") = Some (s "other") /\ value v2 (s "MODULE_VERSION_FILE_PATH") = Some (second ++ s "/../VERSION") /\ text b (second ++ s "/../VERSION") = Some (version_file (s "2") (s "0") (s "7")) /\
  value v2 whole = Some (s "1.5.1") /\ value v2 major = Some (s "1") /\ git b second <> git b (source b) /\ value v2 commit = Some (git b (source b)).
Proof.
  pose (B := two tools_file other_file). assert (E : match configure_project B (s "/src/a") fresh_scope with Some v1 => values (configure_project B (s "/other/b") v1) [s "MODULE_NAME"; s "MODULE_VERSION_FILE_PATH"; whole; major; commit] | None => [] end =
    [Some (s "other"); Some (s "/other/b/../VERSION"); Some (s "1.5.1"); Some (s "1"); Some (s "75b21")]) by (vm_compute; reflexivity).
  destruct (configure_project B (s "/src/a") fresh_scope) as [v1|] eqn:C1; [|discriminate]. destruct (configure_project B (s "/other/b") v1) as [v2|] eqn:C2; [|discriminate].
  exists B, (s "/src/a"), (s "/other/b"), fresh_scope, v1, v2. cbn [values map] in E. split; [exact C1|]. split; [exact C2|]. split; [exact (f_equal (fun l => nth 0 l None) E)|]. split; [exact (f_equal (fun l => nth 1 l None) E)|].
  split; [reflexivity|]. split; [exact (f_equal (fun l => nth 2 l None) E)|]. split; [exact (f_equal (fun l => nth 3 l None) E)|]. split; [vm_compute; discriminate|exact (f_equal (fun l => nth 4 l None) E)].
Qed.
Print Assumptions C159_second_refuted.
