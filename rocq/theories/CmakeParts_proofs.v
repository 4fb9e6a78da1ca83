From Verif Require Import CmakeOpt_model CmakeOpt_spec CmakeOpt_proofs CmakeSet_model CmakeParts_model CmakeParts_spec.

Lemma truthy_on v x : value v x = Some (s "ON") -> truthy v x = true.
Proof. intro H. unfold truthy. rewrite H. vm_compute. reflexivity. Qed.
Lemma truthy_off v x : value v x = Some (s "OFF") -> truthy v x = false.
Proof. intro H. unfold truthy. rewrite H. vm_compute. reflexivity. Qed.
Lemma on_not_off v x : value v x = Some (s "ON") -> value v x = Some (s "OFF") -> False.
Proof. intros A B. rewrite A in B. apply some_inj in B. discriminate B. Qed.
Lemma on_not_none v x : value v x = Some (s "ON") -> value v x = None -> False.
Proof. intros A B. rewrite A in B. discriminate B. Qed.
Lemma off_not_none v x : value v x = Some (s "OFF") -> value v x = None -> False.
Proof. intros A B. rewrite A in B. discriminate B. Qed.
Lemma switch_cases v x : switched v -> In x switches -> on v x \/ value v x = Some (s "OFF") \/ unsaid v x.
Proof. intros H I. unfold on, unsaid. destruct (value v x) as [t|] eqn:E; [|right; right; reflexivity]. destruct (H x t I E) as [-> | ->]; [left; reflexivity|right; left; reflexivity]. Qed.
Lemma given_on_off_switched v : switched v -> given_on_off v.
Proof. intros H x t I E. apply (H x t); [|exact E]. unfold switches. cbn [In] in *. tauto. Qed.
Lemma tests_after keep v v' : switched v -> configure keep v = Some v' -> (on v (s "BUILD_TESTS") -> on v' (s "BUILD_TESTS")) /\ (~ on v (s "BUILD_TESTS") -> value v' (s "BUILD_TESTS") = Some (s "OFF")).
Proof.
  intros H C. split; [intro E; exact (kept_lemma keep v v' (s "BUILD_TESTS") _ C ltac:(discriminate) E)|]. intro N. destruct (switch_cases v (s "BUILD_TESTS") H ltac:(unfold switches; cbn [In]; tauto)) as [E|[E|E]]; [contradiction| |].
  - exact (kept_lemma keep v v' (s "BUILD_TESTS") _ C ltac:(discriminate) E).
  - apply (default_lemma keep v v' _ _ C); [apply doc_tests|discriminate|discriminate|exact E|discriminate].
Qed.
Lemma follows_after keep v v' x : switched v -> configure keep v = Some v' -> In x [s "BUILD_DOCS_TESTS"; s "BUILD_TOOL_TESTS"; s "BUILD_LIBRARY_TESTS"; s "BUILD_ALL"] ->
  on v' x /\ follows v x (s "BUILD_TESTS") \/ value v' x = Some (s "OFF") /\ ~ follows v x (s "BUILD_TESTS").
Proof.
  intros H C I. assert (J : In x switches) by (unfold switches; cbn [In] in *; tauto). assert (A : x <> s "LOG_INFO" /\ x <> s "BUILD_DOCS") by (cbn [In] in I; destruct I as [<-|[<-|[<-|[<-|[]]]]]; split; discriminate).
  destruct A as (A & B). destruct (tests_after keep v v' H C) as (T1 & T2). destruct (switch_cases v x H J) as [E|[E|E]].
  - left. split; [exact (kept_lemma keep v v' _ _ C A E)|left; exact E].
  - right. split; [exact (kept_lemma keep v v' _ _ C A E)|]. intros [F|[F _]]; [exact (on_not_off _ _ F E)|exact (off_not_none _ _ E F)].
  - destruct (switch_cases v (s "BUILD_TESTS") H ltac:(unfold switches; cbn [In]; tauto)) as [F|F].
    + left. split; [|right; split; [exact E|exact F]]. apply (default_lemma keep v v' x (s "ON") C); [apply doc_as_tests; [exact I|exact (T1 F)]|exact B|exact A|exact E|discriminate].
    + assert (N : ~ on v (s "BUILD_TESTS")) by (intro G; destruct F as [F|F]; [exact (on_not_off _ _ G F)|exact (on_not_none _ _ G F)]).
      right. split; [|intros [G|[_ G]]; [exact (on_not_none _ _ G E)|contradiction]]. apply (default_lemma keep v v' x (s "OFF") C); [apply doc_as_tests; [exact I|exact (T2 N)]|exact B|exact A|exact E|discriminate].
Qed.
Lemma follows_truthy keep v v' x : switched v -> configure keep v = Some v' -> In x [s "BUILD_DOCS_TESTS"; s "BUILD_TOOL_TESTS"; s "BUILD_LIBRARY_TESTS"; s "BUILD_ALL"] -> truthy v' x = true <-> follows v x (s "BUILD_TESTS").
Proof.
  intros H C I. destruct (follows_after keep v v' x H C I) as [(E & F)|(E & F)]; [rewrite (truthy_on _ _ E); tauto|rewrite (truthy_off _ _ E); split; [discriminate|contradiction]].
Qed.
Lemma default_on keep v v' x : switched v -> configure keep v = Some v' -> In x [s "BUILD_TOOL"; s "BUILD_LIBRARY"] -> truthy v' x = true <-> (on v x \/ unsaid v x).
Proof.
  intros H C I. assert (J : In x switches) by (unfold switches; cbn [In] in *; tauto). assert (A : x <> s "LOG_INFO" /\ x <> s "BUILD_DOCS") by (cbn [In] in I; destruct I as [<-|[<-|[]]]; split; discriminate).
  destruct A as (A & B). destruct (switch_cases v x H J) as [E|[E|E]].
  - rewrite (truthy_on _ _ (kept_lemma keep v v' _ _ C A E)). tauto.
  - rewrite (truthy_off _ _ (kept_lemma keep v v' _ _ C A E)). split; [discriminate|]. intros [F|F]; [destruct (on_not_off _ _ F E)|destruct (off_not_none _ _ E F)].
  - rewrite (truthy_on v' x (default_lemma keep v v' x (s "ON") C (doc_on _ x I) B A E ltac:(discriminate))). tauto.
Qed.
Lemma docs_truthy keep v v' : switched v -> configure keep v = Some v' -> truthy v' (s "BUILD_DOCS") = true <->
  (on v (s "BUILD_DOCS") \/ unsaid v (s "BUILD_DOCS") /\ (follows v (s "BUILD_DOCS_TESTS") (s "BUILD_TESTS") \/ follows v (s "BUILD_ALL") (s "BUILD_TESTS"))).
Proof.
  intros H C. destruct (switch_cases v (s "BUILD_DOCS") H ltac:(unfold switches; cbn [In]; tauto)) as [E|[E|E]].
  - rewrite (truthy_on _ _ (kept_lemma keep v v' (s "BUILD_DOCS") _ C ltac:(discriminate) E)). tauto.
  - rewrite (truthy_off _ _ (kept_lemma keep v v' (s "BUILD_DOCS") _ C ltac:(discriminate) E)). split; [discriminate|]. intros [F|[F _]]; [destruct (on_not_off _ _ F E)|destruct (off_not_none _ _ E F)].
  - pose proof (follows_after keep v v' (s "BUILD_DOCS_TESTS") H C ltac:(cbn [In]; tauto)) as D. pose proof (follows_after keep v v' (s "BUILD_ALL") H C ltac:(cbn [In]; tauto)) as A.
    destruct (docs_lemma keep v v' (given_on_off_switched v H) C E) as [(V & W)|(V & W1 & W2)].
    + rewrite (truthy_on _ _ V). split; [intros _|reflexivity]. right. split; [exact E|]. destruct W as [W|W].
      * right. destruct A as [(_ & A)|(A & _)]; [exact A|destruct (on_not_off _ _ W A)].
      * left. destruct D as [(_ & D)|(D & _)]; [exact D|destruct (on_not_off _ _ W D)].
    + rewrite (truthy_off _ _ V). split; [discriminate|]. intros [F|[_ [F|F]]]; [destruct (on_not_none _ _ F E)| |].
      * destruct D as [(D & _)|(_ & D)]; [destruct (on_not_off _ _ D W2)|contradiction].
      * destruct A as [(A & _)|(_ & A)]; [destruct (on_not_off _ _ A W1)|contradiction].
Qed.
Lemma if_in (b : bool) (p : part) : In p (if b then [p] else []) <-> b = true.
Proof. destruct b; cbn [In]; intuition discriminate. Qed.
Lemma library_lemma keep v v' : switched v -> configure keep v = Some v' -> In Library (compile_library v') <-> on v (s "BUILD_LIBRARY") \/ unsaid v (s "BUILD_LIBRARY").
Proof. intros H C. unfold compile_library. rewrite if_in. apply (default_on keep v v' _ H C). cbn [In]. tauto. Qed.
Lemma tool_lemma keep v v' : switched v -> configure keep v = Some v' -> In Tool (compile_tool v') <-> on v (s "BUILD_TOOL") \/ unsaid v (s "BUILD_TOOL").
Proof. intros H C. unfold compile_tool. rewrite if_in. apply (default_on keep v v' _ H C). cbn [In]. tauto. Qed.
Lemma tests_lemma keep v v' path : switched v -> configure keep v = Some v' ->
  (In (Tests path) (compile_test_library path v') <-> follows v (s "BUILD_LIBRARY_TESTS") (s "BUILD_TESTS")) /\ (In (Tests path) (compile_test_tool path v') <-> follows v (s "BUILD_TOOL_TESTS") (s "BUILD_TESTS")) /\
  (In (Tests path) (compile_test_documentation path v') <-> follows v (s "BUILD_DOCS_TESTS") (s "BUILD_TESTS")).
Proof. intros H C. unfold compile_test_library, compile_test_tool, compile_test_documentation. rewrite !if_in. split; [|split]; apply (follows_truthy keep v v' _ H C); cbn [In]; tauto. Qed.
Lemma documentation_lemma keep v v' : switched v -> configure keep v = Some v' -> In Documentation (compile_documentation v') <->
  (on v (s "BUILD_DOCS") \/ unsaid v (s "BUILD_DOCS") /\ (follows v (s "BUILD_DOCS_TESTS") (s "BUILD_TESTS") \/ follows v (s "BUILD_ALL") (s "BUILD_TESTS"))).
Proof. intros H C. unfold compile_documentation. rewrite if_in. exact (docs_truthy keep v v' H C). Qed.
