(** C145: further documented defaults. *)
From Verif Require Import Cmake_spec CmakeOpt_model CmakeSet_model CmakeSet_spec CmakeSet_proofs CmakeSet_props CmakeSetMore_spec CmakeSetMore_proofs.

(** the files and directories of a package are beside its own directory *)
Theorem C145_paths : forall files dir args v v' file x t,
  load files dir args v = Some v' -> files (match args with [] => dir ++ s "/project_settings.cmake" | f :: _ => f end) = Some file ->
  In (x, t) documented_paths -> value v x = None -> (forall u, ~ In (x, u) file) -> value v' x = Some (dir ++ s "/" ++ t).
Proof. exact paths_lemma. Qed.
Print Assumptions C145_paths.
(** the name of the target is that of the module *)
Theorem C145_target_partial : forall files dir args v v' file t,
  load files dir args v = Some v' -> files (match args with [] => dir ++ s "/project_settings.cmake" | f :: _ => f end) = Some file ->
  value v (s "MODULE_TARGET_NAME") = None -> (forall u, ~ In (s "MODULE_TARGET_NAME", u) file) -> value v' (s "MODULE_NAME") = Some t -> CmakeSet_spec.plain t -> value v' (s "MODULE_TARGET_NAME") = Some t.
Proof. exact target_lemma. Qed.
Print Assumptions C145_target_partial.
(** the libraries to link with are the packages to find *)
Theorem C145_dependencies : forall files dir args v v' file l,
  load files dir args v = Some v' -> files (match args with [] => dir ++ s "/project_settings.cmake" | f :: _ => f end) = Some file ->
  value v (s "MODULE_DEPENDENCIES") = None -> (forall u, ~ In (s "MODULE_DEPENDENCIES", u) file) -> value v' (s "MODULE_FIND_PACKAGES") = Some (Cmake_spec.join l) -> Forall Cmake_spec.plain l -> l <> [] ->
  value v' (s "MODULE_DEPENDENCIES") = Some (Cmake_spec.join l).
Proof. exact dependencies_lemma. Qed.
Print Assumptions C145_dependencies.
Definition packages_file : commands := [(s "MODULE_NAME", s "ddspipe"); (s "MODULE_FIND_PACKAGES", s "fastcdr;fastrtps;cpp_utils")].
Example C145_more_nonvacuous : results (load (only packages_file) (s "/src") [] empty_scope) [s "MODULE_DEPENDENCIES"; s "MODULE_TARGET_NAME"; s "MODULE_LICENSE_FILE_PATH"; s "MODULE_THIRDPARTY_PATH"] =
  [Some (Cmake_spec.join [s "fastcdr"; s "fastrtps"; s "cpp_utils"]); Some (s "ddspipe"); Some (s "/src/../LICENSE"); Some (s "/src/../thirdparty")].
Proof. vm_compute. reflexivity. Qed.
(** the documentation says that the default of the summary is the large name *)
Theorem C145_summary_refuted : exists files dir v v' file t, load files dir [] v = Some v' /\ files (dir ++ s "/project_settings.cmake") = Some file /\
  value v (s "MODULE_SUMMARY") = None /\ (forall u, ~ In (s "MODULE_SUMMARY", u) file) /\ value v' (s "MODULE_NAME_LARGE") = Some t /\ CmakeSet_spec.plain t /\ value v' (s "MODULE_SUMMARY") <> Some t.
Proof.
  pose (F := [(s "MODULE_NAME", s "tools"); (s "MODULE_NAME_LARGE", s "All tools")] : commands).
  assert (E : results (load (only F) (s "/src") [] empty_scope) [s "MODULE_NAME_LARGE"; s "MODULE_SUMMARY"] = [Some (s "All tools"); Some (s "tools")]) by (vm_compute; reflexivity).
  destruct (load (only F) (s "/src") [] empty_scope) as [v'|] eqn:L; [|discriminate]. exists (only F), (s "/src"), empty_scope, v', F, (s "All tools"). cbn [results map] in E.
  split; [exact L|]. split; [reflexivity|]. split; [reflexivity|]. split; [|split; [exact (f_equal (fun l => nth 0 l None) E)|split]].
  - intros u [I|[I|[]]]; apply (f_equal fst) in I; discriminate I.
  - split; [discriminate|]. intro I. apply (in_dec_false I). vm_compute. reflexivity.
  - assert (K : value v' (s "MODULE_SUMMARY") = Some (s "tools")) by exact (f_equal (fun l => nth 1 l None) E). rewrite K. intro Q. apply some_inj in Q. discriminate Q.
Qed.
Print Assumptions C145_summary_refuted.
