(** C162: the headers of a library say how it is linked. *)
From Verif Require Import Str Dll_model Dll_spec Dll_proofs.

(** C162. The macro before declarations of the library: exported from the DLL inside the library, imported from it outside, nothing if there is no DLL. *)
Theorem C162_api : forall p (e : env) l st, ~ given e (Own (macro p) DLL_GUARD) -> run (library_dll_h p) (e, l) = Some st ->
  (given e (Common WIN32) -> dynamic e (macro p) -> given e (Own (macro p) SOURCE) -> fst st (Own (macro p) DllAPI) = Some (s "__declspec( dllexport )")) /\
  (given e (Common WIN32) -> dynamic e (macro p) -> ~ given e (Own (macro p) SOURCE) -> fst st (Own (macro p) DllAPI) = Some (s "__declspec( dllimport )")) /\
  (~ given e (Common WIN32) \/ ~ dynamic e (macro p) -> fst st (Own (macro p) DllAPI) = Some []).
Proof. exact api_lemma. Qed.
Print Assumptions C162_api.
(** C162. The header is an error exactly if the library is to be linked both ways, or if Visual Studio is to link a DLL to a program with a static runtime. *)
Theorem C162_errors : forall p (e : env) l, not_included e (macro p) -> (forall x, In x [CONFIG_GUARD; VERSION_MAJOR; VERSION_MINOR] -> ~ given e (Own (macro p) x)) ->
  (run (library_dll_h p) (e, l) = None <->
   contradictory e (macro p) \/ automatic e (macro p) /\ (dynamic e (macro p) \/ given e (Common EPROSIMA_DYN_LINK)) /\ ~ given e (Common DLL) /\ ~ given e (Common RTLDLL)).
Proof.
  intros p e l F V. pose proof (linked_lemma p e l F V) as L. destruct (run (library_dll_h p) (e, l)) as [st|].
  - destruct L as (L1 & L2 & _). split; [discriminate|]. intros [H|H]; contradiction.
  - split; [intros _; exact L|reflexivity].
Qed.
Print Assumptions C162_errors.
(** C162. Otherwise Visual Studio is told to link one library, that with the name and version of the module, and nothing else is linked. *)
Theorem C162_linked : forall p (e : env) l st, not_included e (macro p) -> (forall x, In x [CONFIG_GUARD; VERSION_MAJOR; VERSION_MINOR] -> ~ given e (Own (macro p) x)) ->
  run (library_dll_h p) (e, l) = Some st ->
  (~ automatic e (macro p) -> snd st = l) /\
  (automatic e (macro p) -> exists pre tag, snd st = l ++ [pre ++ module_name p ++ tag ++ s "-" ++ major p ++ s "." ++ minor p ++ s ".lib"] /\
    (dynamic e (macro p) \/ given e (Common EPROSIMA_DYN_LINK) -> pre = []) /\ (~ (dynamic e (macro p) \/ given e (Common EPROSIMA_DYN_LINK)) -> pre = s "lib") /\
    (given e (Common DEBUG) -> tag = s "d") /\ (~ given e (Common DEBUG) -> tag = [])).
Proof. intros p e l st F V R. pose proof (linked_lemma p e l F V) as L. rewrite R in L. exact (proj2 (proj2 L)). Qed.
Print Assumptions C162_linked.
(** C162. A program of Visual Studio that uses the library, compiled like it as Release or Debug, is linked with the file that was made. Partial: two of the four build types. *)
Theorem C162_built_partial : forall p shared t, t = Release \/ t = Debug -> exists e', run (library_dll_h p) (start Msvc t shared false (macro p), []) = Some (e', [library_file p shared t]).
Proof. intros p shared t T. destruct (built_lemma p shared t) as [e' E]. exists e'. rewrite E, (file_partial p shared t T). reflexivity. Qed.
Print Assumptions C162_built_partial.
(** C162. Refuted for the others: the linker is told to look for a file that is not that of the library. *)
Theorem C162_built_refuted : forall p shared t, t = MinSizeRel \/ t = RelWithDebInfo -> exists e' f, run (library_dll_h p) (start Msvc t shared false (macro p), []) = Some (e', [f]) /\ f <> library_file p shared t.
Proof. intros p shared t T. destruct (built_lemma p shared t) as [e' E]. eexists e', _. split; [exact E|exact (file_other p shared t T)]. Qed.
Print Assumptions C162_built_refuted.
(** C162. The library is not linked to itself; other compilers are told nothing. *)
Theorem C162_inside : forall p c shared t, exists e', run (library_dll_h p) (start c t shared true (macro p), []) = Some (e', []).
Proof. exact inside_lemma. Qed.
Print Assumptions C162_inside.
Theorem C162_other_compilers : forall p c shared t, c <> Msvc -> exists e', run (library_dll_h p) (start c t shared false (macro p), []) = Some (e', []).
Proof. exact other_compilers_lemma. Qed.
Print Assumptions C162_other_compilers.
(** C162. Including the header again changes nothing. *)
Theorem C162_again : forall p (st st' : state), ~ given (fst st) (Own (macro p) DLL_GUARD) -> run (library_dll_h p) st = Some st' -> run (library_dll_h p) st' = Some st'.
Proof. exact again_lemma. Qed.
Print Assumptions C162_again.
(** C162. A program learns the version and the commit of the library from its macros, unless they are defined before. *)
Theorem C162_version : forall p (e : env) l st x b, ~ given e (Own (macro p) DLL_GUARD) -> ~ given e (Own (macro p) CONFIG_GUARD) ->
  In (x, b) [(VERSION_MAJOR, major p); (VERSION_MINOR, minor p); (VERSION_MICRO, patch p); (VERSION_STRING, s """" ++ version_string p ++ s """"); (COMMIT_HASH, s """" ++ commit p ++ s """")] ->
  run (library_dll_h p) (e, l) = Some st -> (~ given e (Own (macro p) x) -> fst st (Own (macro p) x) = Some b) /\ (forall t, e (Own (macro p) x) = Some t -> fst st (Own (macro p) x) = Some t).
Proof.
  intros p e l st x b F C I R. pose proof (version_lemma p e l st x b F C I R) as V. split; [intro N; rewrite V, (not_given _ _ N); reflexivity|intros t E; rewrite V, E; reflexivity].
Qed.
Print Assumptions C162_version.

Definition first : module := {| macro := s "CPP_UTILS"; module_name := s "cpp_utils"; major := s "1"; minor := s "0"; patch := s "0"; version_string := s "v1.0.0"; commit := s "79f2c95" |}.
Definition second : module := {| macro := s "DDSPIPE_CORE"; module_name := s "ddspipe_core"; major := s "0"; minor := s "4"; patch := s "2"; version_string := s "v0.4.2"; commit := s "0" |}.
Definition seen (x : name) (o : option state) : option (option str * list str) := match o with Some st => Some (fst st x, snd st) | None => None end.
Example C162_nonvacuous :
  seen (Own (macro first) DllAPI) (run (library_dll_h first) (start Msvc Debug true false (macro first), [])) = Some (Some (s "__declspec( dllimport )"), [s "cpp_utilsd-1.0.lib"]) /\
  seen (Own (macro first) DllAPI) (run (library_dll_h first) (start Msvc Release true true (macro first), [])) = Some (Some (s "__declspec( dllexport )"), []) /\
  seen (Own (macro first) DllAPI) (run (library_dll_h first) (start Msvc Release false false (macro first), [])) = Some (Some [], [s "libcpp_utils-1.0.lib"]) /\
  seen (Own (macro first) DllAPI) (run (library_dll_h first) (start Unix Release true true (macro first), [])) = Some (Some [], []) /\
  seen (Own (macro first) VERSION_STRING) (run (library_dll_h first) (start Unix Release true false (macro first), [])) = Some (Some (s """v1.0.0"""), []) /\
  library_file first true RelWithDebInfo = s "cpp_utilsrd-1.0.lib".
Proof. vm_compute. repeat split; reflexivity. Qed.
Example C162_errors_nonvacuous : run (library_dll_h first) (update (start Msvc Release true false (macro first)) (Own (macro first) STATIC_LINK) (Some []), []) = None /\ run (library_dll_h first) (update (start Msvc Release true false (macro first)) (Common DLL) None, []) = None.
Proof. vm_compute. split; reflexivity. Qed.
(** C162. Refuted: a program that uses two libraries is told to link both: the header for linking is included once. *)
Theorem C162_two_refuted : exists st, run (Seq (library_dll_h first) (library_dll_h second)) (start Msvc Release false false (macro first), []) = Some st /\ automatic (start Msvc Release false false (macro first)) (macro second) /\ snd st = [library_file first false Release].
Proof.
  assert (E : match run (Seq (library_dll_h first) (library_dll_h second)) (start Msvc Release false false (macro first), []) with Some st => Some (snd st) | None => None end = Some [library_file first false Release]) by (vm_compute; reflexivity).
  destruct (run (Seq (library_dll_h first) (library_dll_h second)) (start Msvc Release false false (macro first), [])) as [st|]; [|discriminate E]. exists st. split; [reflexivity|]. split.
  - split; [vm_compute; discriminate|]. split; [|split]; vm_compute; intro H; apply H; reflexivity.
  - exact (f_equal (fun o => match o with Some x => x | None => [] end) E).
Qed.
Print Assumptions C162_two_refuted.
(** C162. Refuted: all of eProsima linked both ways is an error. *)
Theorem C162_all_refuted : exists (e : env) st, given e (Common ALL_DYN_LINK) /\ given e (Common ALL_STATIC_LINK) /\ run (library_dll_h first) (e, []) = Some st.
Proof.
  pose (V := fun x => match x with Common (ALL_DYN_LINK | ALL_STATIC_LINK) => Some [] | _ => None end : option str). destruct (run (library_dll_h first) (V, [])) as [st|] eqn:E; [|vm_compute in E; discriminate E].
  exists V, st. split; [vm_compute; discriminate|]. split; [vm_compute; discriminate|exact E].
Qed.
Print Assumptions C162_all_refuted.
(** C162. Refuted: what users declare is exported while the library is compiled with Visual Studio: compile_library.cmake defines EPROSIMA_USER_DLL_EXPORT and the header looks for a macro of the module. *)
Theorem C162_user_export_refuted : forall p t shared st, run (library_dll_h p) (start Msvc t shared true (macro p), []) = Some st -> given (start Msvc t shared true (macro p)) (Common EPROSIMA_USER_DLL_EXPORT) /\ fst st (Own (macro p) USERDllExport) = Some [].
Proof.
  intros p t shared st R. split; [apply start_yes; reflexivity|]. apply (user_lemma p _ [] st (proj1 (start_fresh _ _ _ _ _)) R). right. apply start_not. reflexivity.
Qed.
Print Assumptions C162_user_export_refuted.
