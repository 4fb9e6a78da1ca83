(** C161: the parts of a package that are built. *)
From Verif Require Import CmakeOpt_model CmakeOpt_spec CmakeOpt_proofs CmakeSet_model CmakeParts_model CmakeParts_spec CmakeParts_proofs.

(** C161. The library and the tool are built unless they are switched off. *)
Theorem C161_library : forall keep v v', switched v -> configure keep v = Some v' -> In Library (compile_library v') <-> on v (s "BUILD_LIBRARY") \/ unsaid v (s "BUILD_LIBRARY").
Proof. exact library_lemma. Qed.
Print Assumptions C161_library.
Theorem C161_tool : forall keep v v', switched v -> configure keep v = Some v' -> In Tool (compile_tool v') <-> on v (s "BUILD_TOOL") \/ unsaid v (s "BUILD_TOOL").
Proof. exact tool_lemma. Qed.
Print Assumptions C161_tool.
(** C161. Tests are built exactly if they are switched on, or if nothing is said of them and all tests are. *)
Theorem C161_tests : forall keep v v' path, switched v -> configure keep v = Some v' ->
  (In (Tests path) (compile_test_library path v') <-> follows v (s "BUILD_LIBRARY_TESTS") (s "BUILD_TESTS")) /\ (In (Tests path) (compile_test_tool path v') <-> follows v (s "BUILD_TOOL_TESTS") (s "BUILD_TESTS")) /\
  (In (Tests path) (compile_test_documentation path v') <-> follows v (s "BUILD_DOCS_TESTS") (s "BUILD_TESTS")).
Proof. exact tests_lemma. Qed.
Print Assumptions C161_tests.
(** C161. The documentation is built exactly if it is switched on, or if nothing is said of it and its tests or everything are. *)
Theorem C161_documentation : forall keep v v', switched v -> configure keep v = Some v' -> In Documentation (compile_documentation v') <->
  (on v (s "BUILD_DOCS") \/ unsaid v (s "BUILD_DOCS") /\ (follows v (s "BUILD_DOCS_TESTS") (s "BUILD_TESTS") \/ follows v (s "BUILD_ALL") (s "BUILD_TESTS"))).
Proof. exact documentation_lemma. Qed.
Print Assumptions C161_documentation.
(** C161. Switches never stop the configuration. *)
Theorem C161_accepted : forall keep v, switched v -> exists v', configure keep v = Some v'.
Proof. intros keep v H. exact (succeeds keep v (given_on_off_switched v H)). Qed.
Print Assumptions C161_accepted.

Definition command_line (l : list (str * str)) : vars := {| normal := fun _ => None; cached := fun x => option_map (fun c => (true, snd c)) (List.find (fun c => str_eqb x (fst c)) l) |}.
Definition everything (o : option vars) : list part := match o with
  | Some v => compile_library v ++ compile_tool v ++ compile_test_library (s "test") v ++ compile_test_tool (s "tool/test") v ++ compile_test_documentation (s "docs/test") v ++ compile_documentation v | None => [] end.
Example C161_nonvacuous :
  everything (configure true (command_line [])) = [Library; Tool] /\
  everything (configure true (command_line [(s "BUILD_TESTS", s "ON"); (s "BUILD_TOOL", s "OFF"); (s "BUILD_TOOL_TESTS", s "OFF")])) = [Library; Tests (s "test"); Tests (s "docs/test"); Documentation] /\
  everything (configure true (command_line [(s "BUILD_ALL", s "ON"); (s "BUILD_LIBRARY_TESTS", s "ON")])) = [Library; Tool; Tests (s "test"); Documentation].
Proof. vm_compute. repeat split; reflexivity. Qed.
Lemma find_switched l : Forall (fun c => snd c = s "ON" \/ snd c = s "OFF") l -> switched (command_line l).
Proof.
  intros F x t _. unfold command_line, value. cbn [normal cached]. destruct (List.find _ l) as [c|] eqn:E; cbn [option_map]; [|discriminate]. intro H. apply some_inj in H. cbn [snd] in H. subst t.
  apply List.find_some in E. rewrite Forall_forall in F. exact (F c (proj1 E)).
Qed.
Example C161_switched_nonvacuous : switched (command_line [(s "BUILD_TESTS", s "ON"); (s "BUILD_TOOL", s "OFF")]).
Proof. apply find_switched. apply Forall_cons; [left; reflexivity|apply Forall_cons; [right; reflexivity|apply Forall_nil]]. Qed.
(** C161. Refuted: tests of a library that is not built are not built. *)
Theorem C161_no_library_refuted : exists v v', switched v /\ configure true v = Some v' /\ compile_library v' = [] /\ compile_test_library (s "test") v' = [Tests (s "test")].
Proof.
  pose (V := command_line [(s "BUILD_TESTS", s "ON"); (s "BUILD_LIBRARY", s "OFF")]). assert (W : switched V) by (apply find_switched; apply Forall_cons; [left; reflexivity|apply Forall_cons; [right; reflexivity|apply Forall_nil]]).
  destruct (C161_accepted true V W) as (v' & C). exists V, v'. split; [exact W|]. split; [exact C|].
  assert (E : (match configure true V with Some v => compile_library v | None => [Tool] end, match configure true V with Some v => compile_test_library (s "test") v | None => [] end) = ([], [Tests (s "test")])) by (vm_compute; reflexivity).
  rewrite C in E. split; [exact (f_equal fst E)|exact (f_equal snd E)].
Qed.
Print Assumptions C161_no_library_refuted.
(** C161. Refuted: BUILD_ALL builds everything: it builds no tests. *)
Theorem C161_all_refuted : exists v v', switched v /\ configure true v = Some v' /\ on v (s "BUILD_ALL") /\ compile_test_library (s "test") v' = [] /\ compile_test_tool (s "test") v' = [].
Proof.
  pose (V := command_line [(s "BUILD_ALL", s "ON")]). assert (W : switched V) by (apply find_switched; apply Forall_cons; [left; reflexivity|apply Forall_nil]).
  destruct (C161_accepted true V W) as (v' & C). exists V, v'. split; [exact W|]. split; [exact C|]. split; [vm_compute; reflexivity|].
  assert (E : (match configure true V with Some v => compile_test_library (s "test") v | None => [Tool] end, match configure true V with Some v => compile_test_tool (s "test") v | None => [Tool] end) = ([], [])) by (vm_compute; reflexivity).
  rewrite C in E. split; [exact (f_equal fst E)|exact (f_equal snd E)].
Qed.
Print Assumptions C161_all_refuted.
(** C161. Refuted: without BUILD_ALL, documented as whether the package is built, nothing is built. *)
Theorem C161_nothing_refuted : exists v v', switched v /\ configure true v = Some v' /\ value v (s "BUILD_ALL") = Some (s "OFF") /\ compile_library v' = [Library] /\ compile_tool v' = [Tool].
Proof.
  pose (V := command_line [(s "BUILD_ALL", s "OFF")]). assert (W : switched V) by (apply find_switched; apply Forall_cons; [right; reflexivity|apply Forall_nil]).
  destruct (C161_accepted true V W) as (v' & C). exists V, v'. split; [exact W|]. split; [exact C|]. split; [vm_compute; reflexivity|].
  assert (E : (match configure true V with Some v => compile_library v | None => [] end, match configure true V with Some v => compile_tool v | None => [] end) = ([Library], [Tool])) by (vm_compute; reflexivity).
  rewrite C in E. split; [exact (f_equal fst E)|exact (f_equal snd E)].
Qed.
Print Assumptions C161_nothing_refuted.
