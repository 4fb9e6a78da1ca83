From Verif Require Import Cmake_model Cmake_spec Cmake_proofs CmakeOpt_model CmakeSet_model CmakeSet_spec CmakeSet_proofs CmakeSetMore_spec.

(** where the defaults start from *)
Lemma load_from files dir args v v' file : load files dir args v = Some v' -> files (match args with [] => dir ++ s "/project_settings.cmake" | f :: _ => f end) = Some file ->
  exists w w1, macro (information w) = Some w1 /\ v' = headers (dependencies dir w1) /\
    forall x, value v x = None -> (forall u, ~ In (x, u) file) -> x <> s "VARIADIC_ARGS" -> x <> s "VARIADIC_ARGS_LENGTH" -> x <> s "PROJECT_SETTINGS_FILE" -> value w x = None.
Proof.
  intros L F. apply load_inv in L as (f & F' & _ & K). unfold settings_file in F'. rewrite F in F'. apply some_inj in F'. subst f. exists (execute file (chosen dir args v)). unfold defaults in K.
  destruct (macro (information (execute file (chosen dir args v)))) as [w1|]; [|discriminate]. cbn [option_map] in K. apply some_inj in K. exists w1. split; [reflexivity|]. split; [symmetry; exact K|].
  intros x E N A B C. rewrite execute_other by exact N. rewrite chosen_other by assumption. exact E.
Qed.
Lemma setting_text x t v : value v x = None -> value (setting x (Text t) v) x = Some t.
Proof. intro H. unfold setting, truthy. rewrite H, value_text, Str_proofs.str_eqb_refl. reflexivity. Qed.
Lemma paths_lemma files dir args v v' file x t : load files dir args v = Some v' -> files (match args with [] => dir ++ s "/project_settings.cmake" | f :: _ => f end) = Some file ->
  In (x, t) documented_paths -> value v x = None -> (forall u, ~ In (x, u) file) -> value v' x = Some (dir ++ s "/" ++ t).
Proof.
  intros L F I E N. destruct (load_from _ _ _ _ _ _ L F) as (w & w1 & M & -> & O). unfold documented_paths in I. cbn [In] in I.
  destruct I as [I|[I|[I|[]]]]; pose proof (f_equal fst I) as A; pose proof (f_equal snd I) as B; cbn [fst snd] in A, B; subst x t;
    (unfold headers; cbv zeta; rewrite !setting_other by discriminate; unfold dependencies; cbv zeta; rewrite ?setting_other by discriminate;
     apply setting_text; rewrite ?setting_other by discriminate; rewrite (macro_other _ _ _ M) by discriminate; unfold information; cbv zeta; rewrite ?setting_other by discriminate;
     apply O; (exact E || exact N || discriminate)).
Qed.
Lemma target_lemma files dir args v v' file t : load files dir args v = Some v' -> files (match args with [] => dir ++ s "/project_settings.cmake" | f :: _ => f end) = Some file ->
  value v (s "MODULE_TARGET_NAME") = None -> (forall u, ~ In (s "MODULE_TARGET_NAME", u) file) -> value v' (s "MODULE_NAME") = Some t -> CmakeSet_spec.plain t -> value v' (s "MODULE_TARGET_NAME") = Some t.
Proof.
  intros L F E N V P. destruct (load_from _ _ _ _ _ _ L F) as (w & w1 & M & -> & O).
  assert (K : forall x, x = s "MODULE_NAME" \/ x = s "MODULE_TARGET_NAME" -> value (headers (dependencies dir w1)) x = value (setting (s "MODULE_TARGET_NAME") (Copy (s "MODULE_NAME")) w) x).
  { intros x [-> | ->]; unfold headers, dependencies; cbv zeta; rewrite !setting_other by discriminate; rewrite (macro_other _ _ _ M) by discriminate; unfold information; cbv zeta; rewrite ?setting_other by discriminate; reflexivity. }
  rewrite K in V by (left; reflexivity). rewrite K by (right; reflexivity). rewrite setting_other in V by discriminate. apply setting_copy; [|exact V|exact P]. apply O; (exact E || exact N || discriminate).
Qed.
Lemma set_from_list v x y l : value v y = Some (Cmake_spec.join l) -> Forall Cmake_spec.plain l -> l <> [] -> value (set_from v x y) x = Some (Cmake_spec.join l).
Proof.
  intros V P N. unfold set_from, expand. rewrite V, (join_arguments l P). destruct l as [|a l]; [contradiction|]. rewrite value_text, Str_proofs.str_eqb_refl. reflexivity.
Qed.
Lemma dependencies_lemma files dir args v v' file l : load files dir args v = Some v' -> files (match args with [] => dir ++ s "/project_settings.cmake" | f :: _ => f end) = Some file ->
  value v (s "MODULE_DEPENDENCIES") = None -> (forall u, ~ In (s "MODULE_DEPENDENCIES", u) file) -> value v' (s "MODULE_FIND_PACKAGES") = Some (Cmake_spec.join l) -> Forall Cmake_spec.plain l -> l <> [] ->
  value v' (s "MODULE_DEPENDENCIES") = Some (Cmake_spec.join l).
Proof.
  intros L F E N V P NE. destruct (load_from _ _ _ _ _ _ L F) as (w & w1 & M & -> & O).
  pose (q := setting (s "MODULE_FIND_PACKAGES") (Text []) (setting (s "MODULE_THIRDPARTY_PATH") (Text (dir ++ s "/../thirdparty")) w1)).
  assert (H : forall x, x = s "MODULE_FIND_PACKAGES" \/ x = s "MODULE_DEPENDENCIES" -> value (headers (dependencies dir w1)) x = value (setting (s "MODULE_DEPENDENCIES") (Copy (s "MODULE_FIND_PACKAGES")) q) x).
  { intros x X. assert (D : forall y, In y [s "MODULE_PRIVATE_EXTRA_HEADERS"; s "MODULE_PUBLIC_EXTRA_HEADERS"; s "MODULE_HEADERS_INSTALL_PATH"; s "MODULE_HEADERS_PATH"; s "MODULE_LICENSE_FILE_PATH"; s "MODULE_VERSION_FILE_PATH"] -> x <> y).
    { intros y Y. cbn [In] in Y. destruct X as [-> | ->]; destruct Y as [<-|[<-|[<-|[<-|[<-|[<-|[]]]]]]]; discriminate. }
    unfold headers, dependencies. cbv zeta. rewrite (setting_other (s "MODULE_PRIVATE_EXTRA_HEADERS")) by (apply D; cbn [In]; auto). rewrite (setting_other (s "MODULE_PUBLIC_EXTRA_HEADERS")) by (apply D; cbn [In]; auto).
    rewrite (setting_other (s "MODULE_HEADERS_INSTALL_PATH")) by (apply D; cbn [In]; auto). rewrite (setting_other (s "MODULE_HEADERS_PATH")) by (apply D; cbn [In]; auto).
    rewrite (setting_other (s "MODULE_LICENSE_FILE_PATH")) by (apply D; cbn [In]; auto 9). rewrite (setting_other (s "MODULE_VERSION_FILE_PATH")) by (apply D; cbn [In]; auto 9). reflexivity. }
  rewrite H in V by (left; reflexivity). rewrite H by (right; reflexivity). rewrite setting_other in V by discriminate.
  assert (K : value q (s "MODULE_DEPENDENCIES") = None).
  { unfold q. rewrite !setting_other by discriminate. rewrite (macro_other _ _ _ M) by discriminate. unfold information. cbv zeta. rewrite !setting_other by discriminate. apply O; (exact E || exact N || discriminate). }
  unfold setting, truthy. rewrite K. apply set_from_list; [exact V|exact P|exact NE].
Qed.
