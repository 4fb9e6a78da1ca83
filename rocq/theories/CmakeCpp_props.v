(** C147: the packages and their minimum versions.  C148: the settings of C++. *)
From Verif Require Import CmakeOpt_model CmakeSet_model CmakeSet_spec CmakeSet_proofs CmakeCpp_model CmakeCpp_spec CmakeCpp_proofs.

(** every package of the list is looked for, in their order, and is found *)
Theorem C147_packages : forall keep comp found v w calls names,
  configure_cpp keep comp found v = Some (w, calls) -> list_of (expand v (s "MODULE_FIND_PACKAGES")) names ->
  map fst calls = names /\ Forall (fun c => found c = true) calls.
Proof. exact names_lemma. Qed.
Print Assumptions C147_packages.
(** exactly what is asked for *)
Theorem C147_calls : forall keep comp found v w calls names,
  configure_cpp keep comp found v = Some (w, calls) -> list_of (expand v (s "MODULE_FIND_PACKAGES")) names -> Forall (sensible v) names ->
  Forall2 (asked v) names calls /\ Forall (fun c => found c = true) calls.
Proof. exact calls_lemma. Qed.
Print Assumptions C147_calls.
(** that says it all: for each package there is one call *)
Theorem C147_calls_unique : forall v p c c', asked v p c -> asked v p c' -> c = c'.
Proof. intros v p c c' A B. now rewrite (asked_look v p c A), (asked_look v p c' B). Qed.
Print Assumptions C147_calls_unique.
(** a minimum version is asked for, if it has one or two numbers and is not zero *)
Theorem C147_minimum_partial : forall v p t k c,
  value v (minimum_version p) = Some t -> version t k -> k <= 2 -> not_zero t -> asked v p c -> c = (p, Some t).
Proof. exact asked_minimum. Qed.
Print Assumptions C147_minimum_partial.

Definition scope (l : list (str * string)) : vars := {| normal := fun x => option_map (fun c => s (snd c)) (List.find (fun c => str_eqb x (fst c)) l); cached := fun _ => None |}.
Definition gcc : compiler := {| c_id := s "GNU"; cxx_id := s "GNU"; gnucxx := true; clang_var := false; msvc := false; accepts := fun _ => true |}.
Definition readme (t : string) : vars := scope [(s "MODULE_FIND_PACKAGES", "fastcdr;fastdds"%string); (s "fastdds_MINIMUM_VERSION", t)].
Definition asks (o : option (vars * list call)) : list call := match o with Some (_, l) => l | None => [] end.
Definition flags (o : option (vars * list call)) (l : list string) : list (option str) := match o with Some (v, _) => map (fun x => value v (s x)) l | None => [] end.
Example C147_nonvacuous :
  asks (configure_cpp true gcc (fun _ => true) (readme "3.1")) = [(s "fastcdr", None); (s "fastdds", Some (s "3.1"))] /\
  asks (configure_cpp true gcc (fun _ => true) (readme "0.0")) = [(s "fastcdr", None); (s "fastdds", None)] /\
  configure_cpp true gcc (fun c => match snd c with Some _ => false | None => true end) (readme "3.1") = None.
Proof. split; [|split]; vm_compute; reflexivity. Qed.
Lemma version_300 : version (s "3.0.0") 3.
Proof.
  apply (version_more (s "3") (s "0.0") 2); [discriminate|constructor; [cbn; auto 12|constructor]|]. apply (version_more (s "0") (s "0") 1); [discriminate|constructor; [cbn; auto 12|constructor]|].
  apply version_one; [discriminate|constructor; [cbn; auto 12|constructor]].
Qed.
Lemma readme_list t : list_of (expand (readme t) (s "MODULE_FIND_PACKAGES")) [s "fastcdr"; s "fastdds"].
Proof.
  assert (K : forall x : str, (x = s "fastcdr" \/ x = s "fastdds") -> simple x).
  { intros x [-> | -> ]; (split; [discriminate|]); intros c I J; cbn in I, J; repeat (destruct J as [<- |J]; [repeat (destruct I as [I|I]; [discriminate|]); destruct I|]); destruct J. }
  change (expand (readme t) (s "MODULE_FIND_PACKAGES")) with (s "fastcdr" ++ s ";" ++ s "fastdds"). apply list_more; [apply K; now left|]. apply list_one, K. now right.
Qed.
Lemma readme_minimum t : value (readme t) (minimum_version (s "fastdds")) = Some (s t).
Proof. reflexivity. Qed.
Example C147_hypotheses_nonvacuous : list_of (expand (readme "3.0.0") (s "MODULE_FIND_PACKAGES")) [s "fastcdr"; s "fastdds"] /\ Forall (sensible (readme "3.0.0")) [s "fastcdr"; s "fastdds"].
Proof.
  split; [apply readme_list|]. constructor; [|constructor; [|constructor]].
  - intros t E. vm_compute in E. discriminate.
  - intros t E. rewrite readme_minimum in E. apply some_inj in E. right. exists 3. rewrite <- E. exact version_300.
Qed.
(** the documented example asks for no version: 3.0.0 is neither a number nor a variable *)
Theorem C147_minimum_refuted : ~ forall keep comp found v w calls names p t k,
  configure_cpp keep comp found v = Some (w, calls) -> list_of (expand v (s "MODULE_FIND_PACKAGES")) names -> In p names ->
  value v (minimum_version p) = Some t -> version t k -> not_zero t -> In (p, Some t) calls.
Proof.
  intro H. assert (E : asks (configure_cpp true gcc (fun _ => true) (readme "3.0.0")) = [(s "fastcdr", None); (s "fastdds", None)]) by (vm_compute; reflexivity).
  destruct (configure_cpp true gcc (fun _ => true) (readme "3.0.0")) as [[w calls]|] eqn:C; [|discriminate]. cbn [asks] in E.
  assert (K : In (s "fastdds", Some (s "3.0.0")) calls).
  { apply (H _ _ _ _ _ _ _ _ _ 3 C (readme_list _)); [right; now left|apply readme_minimum|exact version_300|]. exists "3"%char. split; cbn; auto. }
  rewrite E in K. destruct K as [K|[K|[]]]; apply (f_equal snd) in K; discriminate K.
Qed.
Print Assumptions C147_minimum_refuted.

(** a version of C++ that is given becomes the standard *)
Theorem C148_standard : forall keep comp found v w calls t n,
  configure_cpp keep comp found v = Some (w, calls) -> value v (s "MODULE_CPP_VERSION") = Some t -> In (t, n) standards -> value w (s "CMAKE_CXX_STANDARD") = Some n.
Proof. exact standard_lemma. Qed.
Print Assumptions C148_standard.
Theorem C148_unforced : forall keep comp found v w calls,
  configure_cpp keep comp found v = Some (w, calls) -> value v (s "MODULE_CPP_VERSION") = None -> value w (s "CMAKE_CXX_STANDARD") = value v (s "CMAKE_CXX_STANDARD").
Proof. exact unforced_lemma. Qed.
Print Assumptions C148_unforced.
(** the flags that are added are those of the options that are enabled *)
Theorem C148_flags : forall keep comp found v w calls, configure_cpp keep comp found v = Some (w, calls) -> exists t, added v comp instruments_table t /\
  expand w (s "CMAKE_C_FLAGS") = expand v (s "CMAKE_C_FLAGS") ++ t /\
  expand w (s "CMAKE_CXX_FLAGS") = expand v (s "CMAKE_CXX_FLAGS") ++ t ++ (if msvc comp then s " /Zc:preprocessor" else []).
Proof. exact flags_lemma. Qed.
Print Assumptions C148_flags.
(** never both sanitizers *)
Theorem C148_sanitizers : forall keep comp found v w calls,
  configure_cpp keep comp found v = Some (w, calls) -> ~ (enabled v (s "TSAN_BUILD") /\ enabled v (s "ASAN_BUILD")).
Proof. exact sanitizers_lemma. Qed.
Print Assumptions C148_sanitizers.
(** the defaults: shared libraries, and a release; what is given is kept *)
Theorem C148_defaults : forall keep comp found v w calls, configure_cpp keep comp found v = Some (w, calls) ->
  (forall t, value v (s "BUILD_SHARED_LIBS") = Some t -> value w (s "BUILD_SHARED_LIBS") = Some t) /\
  (value v (s "BUILD_SHARED_LIBS") = None -> value w (s "BUILD_SHARED_LIBS") = Some (s "ON")) /\
  (enabled v (s "CMAKE_BUILD_TYPE") \/ enabled v (s "CMAKE_CONFIGURATION_TYPES") -> value w (s "CMAKE_BUILD_TYPE") = value v (s "CMAKE_BUILD_TYPE")) /\
  (normal v (s "CMAKE_BUILD_TYPE") = None -> ~ enabled v (s "CMAKE_BUILD_TYPE") -> ~ enabled v (s "CMAKE_CONFIGURATION_TYPES") -> value w (s "CMAKE_BUILD_TYPE") = Some (s "Release")).
Proof. exact default_values. Qed.
Print Assumptions C148_defaults.
(** nothing else changes *)
Theorem C148_rest : forall keep comp found v w calls x, configure_cpp keep comp found v = Some (w, calls) -> ~ In x set_variables -> value w x = value v x.
Proof. exact rest_lemma. Qed.
Print Assumptions C148_rest.
(** when it stops *)
Theorem C148_stops : forall keep comp found v names, list_of (expand v (s "MODULE_FIND_PACKAGES")) names -> Forall (sensible v) names ->
  (forall t, value v (s "MODULE_CPP_VERSION") = Some t -> ~ In ";"%char t) -> configure_cpp keep comp found v = None <-> stops comp found v names.
Proof. exact stops_lemma. Qed.
Print Assumptions C148_stops.

Definition wanted (more : list (str * string)) : vars := scope ([(s "MODULE_CPP_VERSION", "C++17"%string); (s "CODE_COVERAGE", "ON"%string); (s "CMAKE_CXX_FLAGS", "-g"%string)] ++ more).
Definition clang_cl : compiler := {| c_id := s "Clang"; cxx_id := s "Clang"; gnucxx := false; clang_var := false; msvc := true; accepts := fun _ => true |}.
Example C148_nonvacuous :
  flags (configure_cpp true gcc (fun _ => true) (wanted [(s "ASAN_BUILD", "yes"%string)])) ["CMAKE_CXX_STANDARD"; "CMAKE_C_FLAGS"; "CMAKE_CXX_FLAGS"; "BUILD_SHARED_LIBS"; "CMAKE_BUILD_TYPE"]%string =
    [Some (s "17"); Some (s " --coverage -fprofile-arcs -ftest-coverage -fsanitize=address -fno-omit-frame-pointer");
     Some (s "-g --coverage -fprofile-arcs -ftest-coverage -fsanitize=address -fno-omit-frame-pointer"); Some (s "ON"); Some (s "Release")] /\
  flags (configure_cpp true clang_cl (fun _ => true) (wanted [(s "TSAN_BUILD", "1"%string)])) ["CMAKE_CXX_FLAGS"]%string =
    [Some (s "-g -fprofile-instr-generate -fcoverage-mapping -fsanitize=thread /Zc:preprocessor")] /\
  configure_cpp true gcc (fun _ => true) (wanted [(s "TSAN_BUILD", "ON"%string); (s "ASAN_BUILD", "ON"%string)]) = None /\
  configure_cpp true gcc (fun _ => true) (scope [(s "MODULE_CPP_VERSION", "23"%string)]) = None.
Proof. split; [|split; [|split]]; vm_compute; reflexivity. Qed.

(** the documented default of the version, the empty text, stops CMake if it is given *)
Theorem C148_empty_refuted : ~ forall keep comp found v, value v (s "MODULE_CPP_VERSION") = None -> configure_cpp keep comp found v <> None ->
  configure_cpp keep comp found (set_text v (s "MODULE_CPP_VERSION") []) <> None.
Proof.
  intro H. apply (H true gcc (fun _ => true) (scope [])); [reflexivity| |vm_compute; reflexivity].
  assert (E : flags (configure_cpp true gcc (fun _ => true) (scope [])) ["BUILD_SHARED_LIBS"]%string = [Some (s "ON")]) by (vm_compute; reflexivity).
  destruct (configure_cpp true gcc (fun _ => true) (scope [])); [discriminate|]. discriminate E.
Qed.
Print Assumptions C148_empty_refuted.
