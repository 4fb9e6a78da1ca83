(** C143: the options of the CMake projects. *)
From Verif Require Import CmakeOpt_model CmakeOpt_spec CmakeOpt_proofs.

(** an option that is given keeps its value, and so does every other variable, but for LOG_INFO *)
Theorem C143_kept : forall keep v v' x w, configure keep v = Some v' -> x <> s "LOG_INFO" -> value v x = Some w -> value v' x = Some w.
Proof. exact kept_lemma. Qed.
Print Assumptions C143_kept.
(** LOG_INFO keeps the value of the cache or of the command line *)
Theorem C143_log_given : forall keep v v' w, configure keep v = Some v' -> normal v (s "LOG_INFO") = None -> value v (s "LOG_INFO") = Some w -> value v' (s "LOG_INFO") = Some w.
Proof. exact log_given_lemma. Qed.
Print Assumptions C143_log_given.

(** an option that is not given has its documented default, but for BUILD_DOCS and LOG_INFO *)
Theorem C143_partial : forall keep v v' x t, configure keep v = Some v' -> documented (value v') x t -> x <> s "BUILD_DOCS" -> x <> s "LOG_INFO" -> value v x = None -> t <> [] ->
  value v' x = Some t.
Proof. exact default_lemma. Qed.
Print Assumptions C143_partial.

(** the options are always accepted, and BUILD_DOCS is ON if the tests of the documentation or all is built, and OFF otherwise *)
Theorem C143_accepted : forall keep v, given_on_off v -> exists v', configure keep v = Some v'.
Proof. exact succeeds. Qed.
Print Assumptions C143_accepted.
Theorem C143_docs : forall keep v v', given_on_off v -> configure keep v = Some v' -> value v (s "BUILD_DOCS") = None ->
  value v' (s "BUILD_DOCS") = Some (s "ON") /\ (value v' (s "BUILD_ALL") = Some (s "ON") \/ value v' (s "BUILD_DOCS_TESTS") = Some (s "ON")) \/
  value v' (s "BUILD_DOCS") = Some (s "OFF") /\ value v' (s "BUILD_ALL") = Some (s "OFF") /\ value v' (s "BUILD_DOCS_TESTS") = Some (s "OFF").
Proof. exact docs_lemma. Qed.
Print Assumptions C143_docs.
(** LOG_INFO, if it is not given, is ON in a debug build and empty otherwise *)
Theorem C143_log : forall keep v v', configure keep v = Some v' -> value v (s "LOG_INFO") = None ->
  value v' (s "LOG_INFO") = Some (if str_eqb (expand v' (s "CMAKE_BUILD_TYPE")) (s "Debug") then s "ON" else []).
Proof. exact log_lemma. Qed.
Print Assumptions C143_log.

Definition nothing : vars := {| normal := fun _ => None; cached := fun _ => None |}.
Definition given (x t : str) (v : vars) : vars := {| normal := normal v; cached := update (cached v) x (Some (false, t)) |}.
Example C143_nonvacuous : exists v', configure false (given (s "BUILD_TESTS") (s "ON") (given (s "CMAKE_BUILD_TYPE") (s "Debug") nothing)) = Some v' /\
  map (value v') [s "BUILD_TESTS"; s "BUILD_ALL"; s "BUILD_DOCS"; s "BUILD_TOOL"; s "TSAN_BUILD"; s "CMAKE_BUILD_TYPE"; s "LOG_INFO"] =
  [Some (s "ON"); Some (s "ON"); Some (s "ON"); Some (s "ON"); Some (s "OFF"); Some (s "Debug"); Some (s "ON")].
Proof.
  destruct (configure false _) as [v'|] eqn:C; [exists v'; split; [reflexivity|]|apply (f_equal (fun o => match o with Some _ => true | None => false end)) in C; vm_compute in C; discriminate].
  apply (f_equal (fun o => match o with Some v => map (value v) [s "BUILD_TESTS"; s "BUILD_ALL"; s "BUILD_DOCS"; s "BUILD_TOOL"; s "TSAN_BUILD"; s "CMAKE_BUILD_TYPE"; s "LOG_INFO"] | None => [] end)) in C.
  cbv beta iota in C. rewrite <- C. vm_compute. reflexivity.
Qed.
Example C143_docs_nonvacuous : given_on_off (given (s "BUILD_TESTS") (s "ON") nothing) /\ value (given (s "BUILD_TESTS") (s "ON") nothing) (s "BUILD_DOCS") = None.
Proof. split; [|reflexivity]. intros x t I E. cbn [In] in I. destruct I as [<-|[<-|[<-|[]]]]; vm_compute in E; try discriminate. injection E as <-. left. reflexivity. Qed.

(** BUILD_DOCS is documented to be as BUILD_DOCS_TESTS *)
Theorem C143_docs_refuted : ~ forall keep v v' t, given_on_off v -> configure keep v = Some v' -> documented (value v') (s "BUILD_DOCS") t -> value v (s "BUILD_DOCS") = None -> value v' (s "BUILD_DOCS") = Some t.
Proof.
  intro H. assert (G : given_on_off (given (s "BUILD_ALL") (s "ON") nothing)).
  { intros x t I E. cbn [In] in I. destruct I as [<-|[<-|[<-|[]]]]; vm_compute in E; try discriminate. injection E as <-. left. reflexivity. }
  destruct (succeeds false _ G) as [v' C]. pose proof (f_equal (fun o => match o with Some v => map (value v) [s "BUILD_DOCS_TESTS"; s "BUILD_DOCS"] | None => [] end) C) as E.
  vm_compute in E. injection E as E1 E2. symmetry in E1, E2. pose proof (H false _ v' (s "OFF") G C (doc_docs _ _ E1) eq_refl) as K. pose proof (eq_trans (eq_sym K) E2). discriminate.
Qed.
Print Assumptions C143_docs_refuted.

(** LOG_INFO is documented to be OFF *)
Theorem C143_log_refuted : ~ forall keep v v' t, given_on_off v -> configure keep v = Some v' -> documented (value v') (s "LOG_INFO") t -> value v (s "LOG_INFO") = None -> value v' (s "LOG_INFO") = Some t.
Proof.
  intro H. assert (G : given_on_off (given (s "CMAKE_BUILD_TYPE") (s "Debug") nothing)).
  { intros x t I E. cbn [In] in I. destruct I as [<-|[<-|[<-|[]]]]; vm_compute in E; discriminate. }
  destruct (succeeds false _ G) as [v' C]. pose proof (f_equal (fun o => match o with Some v => map (value v) [s "LOG_INFO"] | None => [] end) C) as E.
  vm_compute in E. injection E as E. symmetry in E. pose proof (H false _ v' (s "OFF") G C (doc_off _ _ (or_intror (or_intror (or_intror (or_introl eq_refl))))) eq_refl) as K.
  pose proof (eq_trans (eq_sym K) E). discriminate.
Qed.
Print Assumptions C143_log_refuted.

(** LOG_INFO that a project sets is taken away, if the policy is the old one *)
Theorem C143_log_set_refuted : ~ forall v v' w, configure false v = Some v' -> value v (s "LOG_INFO") = Some w -> value v' (s "LOG_INFO") = Some w.
Proof.
  intro H. assert (G : given_on_off (set nothing (s "LOG_INFO") (s "ON"))).
  { intros x t I E. cbn [In] in I. destruct I as [<-|[<-|[<-|[]]]]; vm_compute in E; discriminate. }
  destruct (succeeds false _ G) as [v' C]. pose proof (f_equal (fun o => match o with Some v => map (value v) [s "LOG_INFO"] | None => [] end) C) as E.
  vm_compute in E. injection E as E. symmetry in E. pose proof (eq_trans (eq_sym (H _ v' (s "ON") C eq_refl)) E). discriminate.
Qed.
Print Assumptions C143_log_set_refuted.

(** so a second package in the same scope turns the logs of a debug build off *)
Theorem C143_twice_refuted : ~ forall v v1 v2 x, configure false v = Some v1 -> configure false v1 = Some v2 -> value v2 x = value v1 x.
Proof.
  intro H. pose (V := given (s "CMAKE_BUILD_TYPE") (s "Debug") nothing).
  assert (E : match configure false V with Some v1 => match configure false v1 with Some v2 => Some (value v1 (s "LOG_INFO"), value v2 (s "LOG_INFO")) | None => None end | None => None end = Some (Some (s "ON"), Some [])) by (vm_compute; reflexivity).
  destruct (configure false V) as [v1|] eqn:C1; [|discriminate]. destruct (configure false v1) as [v2|] eqn:C2; [|discriminate].
  pose proof (H V v1 v2 (s "LOG_INFO") C1 C2) as K. apply some_inj in E. pose proof (f_equal fst E) as E1. pose proof (f_equal snd E) as E2. cbv beta iota delta [fst snd] in E1, E2. rewrite E1, E2 in K. discriminate K.
Qed.
Print Assumptions C143_twice_refuted.

(** and a build that becomes a debug build has no logs, because the cache keeps the empty value *)
Definition next_run (v : vars) : vars := {| normal := fun _ => None; cached := cached v |}.
Theorem C143_rebuild_refuted : ~ forall keep v v1 v2 v3, configure keep v = Some v1 -> configure keep (given (s "CMAKE_BUILD_TYPE") (s "Debug") v) = Some v2 ->
  configure keep (given (s "CMAKE_BUILD_TYPE") (s "Debug") (next_run v1)) = Some v3 -> value v3 (s "LOG_INFO") = value v2 (s "LOG_INFO").
Proof.
  intro H. pose (D := given (s "CMAKE_BUILD_TYPE") (s "Debug")).
  assert (E : match configure true nothing, configure true (D nothing) with Some v1, Some v2 => match configure true (D (next_run v1)) with Some v3 => Some (value v2 (s "LOG_INFO"), value v3 (s "LOG_INFO")) | None => None end | _, _ => None end = Some (Some (s "ON"), Some [])) by (vm_compute; reflexivity).
  destruct (configure true nothing) as [v1|] eqn:C1; [|discriminate]. destruct (configure true (D nothing)) as [v2|] eqn:C2; [|discriminate].
  destruct (configure true (D (next_run v1))) as [v3|] eqn:C3; [|discriminate]. pose proof (H true nothing v1 v2 v3 C1 C2 C3) as K. apply some_inj in E. pose proof (f_equal fst E) as E1. pose proof (f_equal snd E) as E2. cbv beta iota delta [fst snd] in E1, E2. rewrite E1, E2 in K. discriminate K.
Qed.
Print Assumptions C143_rebuild_refuted.
