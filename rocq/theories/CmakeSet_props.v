(** C145: the settings of a project. *)
From Verif Require Import CmakeOpt_model CmakeSet_model CmakeSet_spec CmakeSet_proofs.

(** what the settings file sets is kept, if CMake does not take it for false; the file is the argument, or project_settings.cmake *)
Theorem C145_given_partial : forall files dir args v v' file x t,
  load files dir args v = Some v' -> files (match args with [] => dir ++ s "/project_settings.cmake" | f :: _ => f end) = Some file ->
  says file x t -> ~ false_text t -> value v' x = Some t.
Proof. exact given_lemma. Qed.
Print Assumptions C145_given_partial.
(** what neither the file nor the scope sets has its documented default, if that is not a list *)
Theorem C145_default_partial : forall files dir args v v' file x t,
  load files dir args v = Some v' -> files (match args with [] => dir ++ s "/project_settings.cmake" | f :: _ => f end) = Some file ->
  documented_setting (value v') x t -> value v x = None -> (forall u, ~ In (x, u) file) -> plain t -> value v' x = Some t.
Proof. exact default_lemma. Qed.
Print Assumptions C145_default_partial.
(** a name is enough *)
Theorem C145_accepted : forall files dir args v file t,
  files (match args with [] => dir ++ s "/project_settings.cmake" | f :: _ => f end) = Some file -> says file (s "MODULE_NAME") t -> plain t -> exists v', load files dir args v = Some v'.
Proof. exact accepted_lemma. Qed.
Print Assumptions C145_accepted.

Definition empty_scope : vars := {| normal := fun _ => None; cached := fun _ => None |}.
Definition only (file : commands) (path : str) : option commands := if str_eqb path (s "/src/project_settings.cmake") then Some file else None.
(** the one of cpp_utils, but for the packages *)
Definition cpp_utils_file : commands := [(s "MODULE_NAME", s "cpp_utils"); (s "MODULE_SUMMARY", s "C++ library")].
Definition results (o : option vars) (l : list str) : list (option str) := match o with Some v => map (value v) l | None => [] end.
Example C145_nonvacuous :
  results (load (only cpp_utils_file) (s "/src") [] empty_scope)
    [s "MODULE_NAME"; s "MODULE_NAME_LARGE"; s "MODULE_SUMMARY"; s "MODULE_DESCRIPTION"; s "MODULE_MACRO"; s "MODULE_HEADERS_INSTALL_PATH"; s "MODULE_DEPENDENCIES"] =
  [Some (s "cpp_utils"); Some (s "cpp_utils"); Some (s "C++ library"); Some (s "C++ library"); Some (s "CPP_UTILS"); Some (s "cpp_utils"); None].
Proof. vm_compute. reflexivity. Qed.
Example C145_hypotheses_nonvacuous : says cpp_utils_file (s "MODULE_SUMMARY") (s "C++ library") /\ is_off (s "C++ library") = false /\ plain (s "cpp_utils").
Proof.
  split; [exists [(s "MODULE_NAME", s "cpp_utils")], []; split; [reflexivity|intros u []]|]. split; [vm_compute; reflexivity|].
  split; [discriminate|]. intro I. apply (in_dec_false I). vm_compute. reflexivity.
Qed.

(** a value that CMake takes for false is replaced *)
Theorem C145_false_refuted : ~ forall files dir args v v' file x t, load files dir args v = Some v' ->
  files (match args with [] => dir ++ s "/project_settings.cmake" | f :: _ => f end) = Some file -> says file x t -> value v' x = Some t.
Proof.
  intro H. pose (F := [(s "MODULE_NAME", s "norwegian"); (s "MODULE_MACRO", s "NO")] : commands).
  assert (E : results (load (only F) (s "/src") [] empty_scope) [s "MODULE_MACRO"] = [Some (s "NORWEGIAN")]) by (vm_compute; reflexivity).
  destruct (load (only F) (s "/src") [] empty_scope) as [v'|] eqn:L; [|discriminate].
  assert (K : value v' (s "MODULE_MACRO") = Some (s "NO")).
  { apply (H _ _ _ _ _ F _ _ L eq_refl). exists [(s "MODULE_NAME", s "norwegian")], []. split; [reflexivity|intros u []]. }
  cbn [results map] in E. rewrite K in E. discriminate E.
Qed.
Print Assumptions C145_false_refuted.

(** a package in a subdirectory has the settings of the package around it where its file says nothing *)
Theorem C145_subdirectory_refuted : ~ forall files dir args v v' file x t, load files dir args v = Some v' ->
  files (match args with [] => dir ++ s "/project_settings.cmake" | f :: _ => f end) = Some file ->
  documented_setting (value v') x t -> (forall u, ~ In (x, u) file) -> plain t -> value v' x = Some t.
Proof.
  intro H. pose (F := [(s "MODULE_NAME", s "inner")] : commands).
  assert (E : match load (only cpp_utils_file) (s "/src") [] empty_scope with Some v => results (load (only F) (s "/src") [] v) [s "MODULE_NAME"; s "MODULE_MACRO"] | None => [] end = [Some (s "inner"); Some (s "CPP_UTILS")]) by (vm_compute; reflexivity).
  destruct (load (only cpp_utils_file) (s "/src") [] empty_scope) as [v|]; [|discriminate]. destruct (load (only F) (s "/src") [] v) as [v'|] eqn:L; [|discriminate].
  cbn [results map] in E. pose proof (f_equal (fun l => nth_error l 0) E) as E1. pose proof (f_equal (fun l => nth_error l 1) E) as E2. cbn [nth_error] in E1, E2. apply some_inj in E1, E2.
  assert (K : value v' (s "MODULE_MACRO") = Some (map upper (s "inner"))).
  { apply (H _ _ _ _ _ F _ _ L eq_refl).
    - eapply doc_macro; [exact E1|apply uppercase_upper].
    - intros u [I|[]]. apply (f_equal fst) in I. discriminate I.
    - apply upper_plain_conv. split; [discriminate|]. intro I. apply (in_dec_false I). vm_compute. reflexivity. }
  rewrite E2 in K. apply some_inj in K. discriminate K.
Qed.
Print Assumptions C145_subdirectory_refuted.

(** a summary with a semicolon at its end loses it as the description *)
Theorem C145_list_refuted : ~ forall files dir args v v' file x t, load files dir args v = Some v' ->
  files (match args with [] => dir ++ s "/project_settings.cmake" | f :: _ => f end) = Some file ->
  documented_setting (value v') x t -> value v x = None -> (forall u, ~ In (x, u) file) -> value v' x = Some t.
Proof.
  intro H. pose (F := [(s "MODULE_NAME", s "tools"); (s "MODULE_SUMMARY", s "Fast;")] : commands).
  assert (E : results (load (only F) (s "/src") [] empty_scope) [s "MODULE_SUMMARY"; s "MODULE_DESCRIPTION"] = [Some (s "Fast;"); Some (s "Fast")]) by (vm_compute; reflexivity).
  destruct (load (only F) (s "/src") [] empty_scope) as [v'|] eqn:L; [|discriminate].
  cbn [results map] in E. pose proof (f_equal (fun l => nth_error l 0) E) as E1. pose proof (f_equal (fun l => nth_error l 1) E) as E2. cbn [nth_error] in E1, E2. apply some_inj in E1, E2.
  assert (K : value v' (s "MODULE_DESCRIPTION") = Some (s "Fast;")).
  { apply (H _ _ _ _ _ F _ _ L eq_refl); [apply doc_description; exact E1|reflexivity|]. intros u [I|[I|[]]]; apply (f_equal fst) in I; discriminate I. }
  rewrite E2 in K. apply some_inj in K. discriminate K.
Qed.
Print Assumptions C145_list_refuted.
