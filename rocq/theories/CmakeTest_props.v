(** C149: the tests that are registered for an executable of tests. *)
From Verif Require Import CmakeOpt_model CmakeSet_spec CmakeSet_proofs CmakeTest_model CmakeTest_spec CmakeTest_proofs.

(** each case of the list has one test, and there is no other; it stops if a case is listed twice or a name is taken *)
Theorem C149_entries_partial : forall names suite t cases, case_list t cases -> ~ false_text t ->
  (NoDup cases -> (forall c, In c cases -> ~ In (suite ++ s "." ++ c) names) -> exists l, register names suite t = Some l) /\
  forall l, register names suite t = Some l -> NoDup cases /\ map fst l = map (fun c => suite ++ s "." ++ c) cases.
Proof. exact entries_lemma. Qed.
Print Assumptions C149_entries_partial.
(** the test of a case runs its tests *)
Theorem C149_runs_partial : forall names suite t cases l c full, case_list t cases -> ~ false_text t -> identifier suite -> register names suite t = Some l ->
  In c cases -> full_name suite c full -> exists args, In (suite ++ s "." ++ c, args) l /\ runs args full.
Proof. exact runs_lemma. Qed.
Print Assumptions C149_runs_partial.
(** and no other test of the list does *)
Theorem C149_once : forall names suite t cases l c full n args, case_list t cases -> ~ false_text t -> identifier suite -> register names suite t = Some l ->
  In c cases -> full_name suite c full -> In (n, args) l -> runs args full -> n = suite ++ s "." ++ c.
Proof. exact once_lemma. Qed.
Print Assumptions C149_once.
(** without a list there is one test, which runs everything *)
Theorem C149_general : forall names suite, ~ In suite names -> exists l, register names suite [] = Some l /\ l = [(suite, [])] /\ forall full, runs (snd (hd ([], []) l)) full.
Proof. exact general_lemma. Qed.
Print Assumptions C149_general.

Lemma identifier_dec t : t <> [] -> forallb (fun c => existsb (Ascii.eqb c) (s "abcdefghijklmnopqrstuvwxyzABCDEFGHIJKLMNOPQRSTUVWXYZ0123456789_")) t = true -> identifier t.
Proof.
  intros N H. split; [exact N|]. apply Forall_forall. intros c I. rewrite forallb_forall in H. specialize (H c I). apply existsb_exists in H. destruct H as (x & J & E). apply Ascii.eqb_eq in E. now subst.
Qed.
Lemma log_cases : case_list (s "trivial;verbose") [s "trivial"; s "verbose"].
Proof. apply (cases_more (s "trivial") (s "verbose")); [apply identifier_dec; [discriminate|reflexivity]|]. apply cases_one. apply identifier_dec; [discriminate|reflexivity]. Qed.
Lemma not_false t : is_off t = false -> ~ false_text t.
Proof. intros H F. apply CmakeCpp_proofs.off_false in F. congruence. Qed.
Example C149_nonvacuous :
  register [s "EventTest.wait"] (s "LogTest") (s "trivial;verbose") =
    Some [(s "LogTest.trivial", [s "--gtest_filter=LogTest**.trivial:**/LogTest**.trivial/**"]); (s "LogTest.verbose", [s "--gtest_filter=LogTest**.verbose:**/LogTest**.verbose/**"])] /\
  register [] (s "LogTest") (s "trivial;trivial") = None /\ register [s "LogTest.verbose"] (s "LogTest") (s "trivial;verbose") = None.
Proof. split; [|split]; vm_compute; reflexivity. Qed.
Example C149_hypotheses_nonvacuous : case_list (s "trivial;verbose") [s "trivial"; s "verbose"] /\ ~ false_text (s "trivial;verbose") /\ identifier (s "LogTest") /\
  full_name (s "LogTest") (s "verbose") (s "All/LogTest.verbose/0").
Proof.
  split; [exact log_cases|]. split; [apply not_false; reflexivity|]. split; [apply identifier_dec; [discriminate|reflexivity]|].
  apply (full_instance (s "LogTest") (s "verbose") (s "All") (s "0")); apply identifier_dec; try discriminate; reflexivity.
Qed.

(** a single case whose name CMake takes for false has no test of its own *)
Theorem C149_off_refuted : ~ forall names suite t cases l, case_list t cases -> register names suite t = Some l -> map fst l = map (fun c => suite ++ s "." ++ c) cases.
Proof.
  intro H. assert (K : [s "Acknowledge"] = [s "Acknowledge.no"]); [|discriminate K].
  apply (H [] (s "Acknowledge") (s "no") [s "no"] [(s "Acknowledge", [])]); [|vm_compute; reflexivity]. apply cases_one. apply identifier_dec; [discriminate|reflexivity].
Qed.
Print Assumptions C149_off_refuted.
(** the instances of tests with type parameters are run by none *)
Theorem C149_typed_instance_refuted : ~ forall names suite t cases l c p i, case_list t cases -> ~ false_text t -> identifier suite -> identifier p -> identifier i ->
  register names suite t = Some l -> In c cases -> exists n args, In (n, args) l /\ runs args (typed_instance suite c p i).
Proof.
  intro H. assert (I : forall t, t <> [] -> forallb (fun c => existsb (Ascii.eqb c) (s "abcdefghijklmnopqrstuvwxyzABCDEFGHIJKLMNOPQRSTUVWXYZ0123456789_")) t = true -> identifier t) by exact identifier_dec.
  assert (Q : identifier (s "Q")) by (apply I; [discriminate|reflexivity]). assert (A : identifier (s "a")) by (apply I; [discriminate|reflexivity]).
  destruct (H [] (s "Q") (s "a") [s "a"] [case_entry (s "Q") (s "a")] (s "a") (s "P") (s "0")) as (n & args & J & R);
    [now apply cases_one|apply not_false; reflexivity|exact Q|apply I; [discriminate|reflexivity]|apply I; [discriminate|reflexivity]|vm_compute; reflexivity|now left|].
  destruct J as [J|[]]. symmetry in J. apply (runs_case (s "Q") (s "a") n args _ Q A J) in R. destruct R as [(r & R)|(u & v & w & R)]; [discriminate R|].
  change (typed_instance (s "Q") (s "a") (s "P") (s "0")) with (s "P/Q/0" ++ "."%char :: s "a") in R. change (s "." ++ s "a" ++ s "/" ++ w) with ("."%char :: s "a/" ++ w) in R.
  rewrite (app_assoc (s "Q") v), (app_assoc (s "/") (s "Q" ++ v)), (app_assoc u) in R. apply dot_first in R.
  - destruct R as [_ R]. discriminate R.
  - intro X. apply (in_dec_false X). reflexivity.
  - intro X. apply (in_dec_false X). reflexivity.
Qed.
Print Assumptions C149_typed_instance_refuted.
(** the test of a case also runs those of other suites whose names begin with that of its own *)
Theorem C149_other_suite_refuted : ~ forall names suite t cases l c other args, case_list t cases -> ~ false_text t -> identifier suite -> identifier other ->
  register names suite t = Some l -> In c cases -> In (suite ++ s "." ++ c, args) l -> runs args (other ++ s "." ++ c) -> other = suite.
Proof.
  intro H. assert (Q : identifier (s "Log")) by (apply identifier_dec; [discriminate|reflexivity]). assert (A : identifier (s "a")) by (apply identifier_dec; [discriminate|reflexivity]).
  assert (K : s "LogFilter" = s "Log"); [|discriminate K].
  apply (H [] (s "Log") (s "a") [s "a"] [case_entry (s "Log") (s "a")] (s "a") (s "LogFilter") (snd (case_entry (s "Log") (s "a"))));
    [now apply cases_one|apply not_false; reflexivity|exact Q|apply identifier_dec; [discriminate|reflexivity]|vm_compute; reflexivity|now left|now left|].
  apply (runs_case (s "Log") (s "a") (s "Log.a") _ _ Q A eq_refl). left. exists (s "Filter"). reflexivity.
Qed.
Print Assumptions C149_other_suite_refuted.
