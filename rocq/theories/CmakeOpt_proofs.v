From Verif Require Import CmakeOpt_model CmakeOpt_spec Str_proofs.

Definition filled (t : str) : option str := match t with [] => None | _ => Some t end.
Lemma value_default x t v y : value (default x t v) y = if str_eqb y x then match value v x with Some w => Some w | None => filled t end else value v y.
Proof.
  unfold default, defined. destruct (value v x) eqn:E.
  - destruct (str_eqb y x) eqn:F; [apply str_eqb_eq in F; subst; exact E|reflexivity].
  - unfold value, set, update, filled. cbn [normal cached]. destruct (str_eqb y x) eqn:F; [|reflexivity].
    apply str_eqb_eq in F; subst. destruct t; [|reflexivity]. unfold value in E. destruct (normal v x); [discriminate|]. exact E.
Qed.
Lemma value_set x t v y : value (set v x t) y = if str_eqb y x then match t with [] => option_map snd (cached v x) | _ => Some t end else value v y.
Proof.
  unfold value, set, update. cbn [normal cached]. destruct (str_eqb y x) eqn:F; [|reflexivity]. apply str_eqb_eq in F; subst. destruct t; reflexivity.
Qed.
Lemma value_cache keep x v y : y <> x -> value (set_cache keep v x) y = value v y.
Proof.
  intro N. assert (F : str_eqb y x = false) by (apply str_eqb_neq; exact N). unfold set_cache, value, update.
  destruct (cached v x) as [[[] t]|]; [reflexivity| |]; cbn [normal cached]; destruct keep; rewrite F; reflexivity.
Qed.
Lemma kept_default x t v y w : value v y = Some w -> value (default x t v) y = Some w.
Proof. intro E. rewrite value_default. destruct (str_eqb y x) eqn:F; [|exact E]. apply str_eqb_eq in F; subst. rewrite E. reflexivity. Qed.
Lemma other_default x t v y : y <> x -> value (default x t v) y = value v y.
Proof. intro N. rewrite value_default. apply str_eqb_neq in N. rewrite N. reflexivity. Qed.

Lemma some_inj {A} (a b : A) : Some a = Some b -> a = b.
Proof. congruence. Qed.
Lemma configure_parts keep v : configure keep v = option_map (fun v => part4 keep (part3 v)) (part2 (part1 v)).
Proof. reflexivity. Qed.
Ltac dis I := let E := fresh in intro E; rewrite E in I; cbn [In] in I; repeat (destruct I as [I|I]; [discriminate I|]); exact I.
Ltac eqs := repeat match goal with |- context [str_eqb (s ?a) (s ?b)] => let r := eval vm_compute in (str_eqb (s a) (s b)) in change (str_eqb (s a) (s b)) with r end; cbv iota.
Lemma part1_kept v y w : value v y = Some w -> value (part1 v) y = Some w.
Proof. intro E. unfold part1. cbv zeta. do 5 apply kept_default. exact E. Qed.
Lemma part2_kept v v' y w : part2 v = Some v' -> value v y = Some w -> value v' y = Some w.
Proof.
  unfold part2, defined. intros P E. destruct (value v (s "BUILD_DOCS")) as [dw|] eqn:D; [injection P as <-; exact E|].
  destruct (docs_value v) as [dv|]; [|discriminate]. apply some_inj in P. rewrite <- P, value_set. destruct (str_eqb y (s "BUILD_DOCS")) eqn:F; [|exact E]. apply str_eqb_eq in F. subst. congruence.
Qed.
Lemma part2_other v v' y : part2 v = Some v' -> y <> s "BUILD_DOCS" -> value v' y = value v y.
Proof.
  unfold part2. intros P N. destruct (defined v (s "BUILD_DOCS")); [injection P as <-; reflexivity|].
  destruct (docs_value v) as [dv|]; [|discriminate]. apply some_inj in P. rewrite <- P, value_set. apply str_eqb_neq in N. rewrite N. reflexivity.
Qed.
Lemma part3_kept v y w : value v y = Some w -> value (part3 v) y = Some w.
Proof. intro E. unfold part3. cbv zeta. do 6 apply kept_default. exact E. Qed.
Lemma part4_other keep v y : y <> s "LOG_INFO" -> value (part4 keep v) y = value v y.
Proof.
  intro N. unfold part4. destruct (_ && _); [|apply value_cache; exact N]. rewrite value_set. apply str_eqb_neq in N. rewrite N. reflexivity.
Qed.

Lemma kept_lemma keep v v' x w : configure keep v = Some v' -> x <> s "LOG_INFO" -> value v x = Some w -> value v' x = Some w.
Proof.
  intros C N E. rewrite configure_parts in C. destruct (part2 (part1 v)) as [v2|] eqn:P; [|discriminate]. apply some_inj in C. subst v'. rewrite part4_other by exact N.
  apply part3_kept. apply (part2_kept _ _ _ _ P). apply part1_kept. exact E.
Qed.

Lemma tests_value v : value (part1 v) (s "BUILD_TESTS") = Some (match value v (s "BUILD_TESTS") with Some t => t | None => s "OFF" end).
Proof. unfold part1. cbv zeta. rewrite !value_default. eqs. destruct (value v (s "BUILD_TESTS")) as [dn|]; reflexivity. Qed.
Lemma as_tests v x : In x [s "BUILD_DOCS_TESTS"; s "BUILD_TOOL_TESTS"; s "BUILD_LIBRARY_TESTS"; s "BUILD_ALL"] ->
  value (part1 v) x = match value v x with Some w => Some w | None => filled (match value v (s "BUILD_TESTS") with Some t => t | None => s "OFF" end) end.
Proof.
  intros I. cbn [In] in I. repeat (destruct I as [<-|I]); [| | | |destruct I]; unfold part1, expand; cbv zeta; rewrite !value_default; eqs; repeat match goal with |- context [value v ?x] => destruct (value v x) as [?w|] end; reflexivity.
Qed.

Lemma truth_on v : truth v (s "ON") = Some true.
Proof. reflexivity. Qed.
Lemma truth_off v : truth v (s "OFF") = Some false.
Proof. reflexivity. Qed.
Lemma on_off_part1 v x : given_on_off v -> In x [s "BUILD_DOCS_TESTS"; s "BUILD_ALL"] -> value (part1 v) x = Some (s "ON") \/ value (part1 v) x = Some (s "OFF").
Proof.
  intros G I. rewrite as_tests by (cbn in *; intuition). destruct (value v x) as [w|] eqn:E.
  - assert (J : In x [s "BUILD_TESTS"; s "BUILD_DOCS_TESTS"; s "BUILD_ALL"]) by (cbn in *; intuition). destruct (G x w J E) as [->| ->]; auto.
  - destruct (value v (s "BUILD_TESTS")) as [w|] eqn:F; [|right; reflexivity]. assert (J : In (s "BUILD_TESTS") [s "BUILD_TESTS"; s "BUILD_DOCS_TESTS"; s "BUILD_ALL"]) by (left; reflexivity).
    destruct (G _ w J F) as [->| ->]; auto.
Qed.
Lemma succeeds keep v : given_on_off v -> exists v', configure keep v = Some v'.
Proof.
  intro G. rewrite configure_parts. unfold part2, docs_value, expand. destruct (defined (part1 v) (s "BUILD_DOCS")); [eexists; reflexivity|].
  destruct (on_off_part1 v (s "BUILD_ALL") G) as [A|A]; [cbn; auto| |]; destruct (on_off_part1 v (s "BUILD_DOCS_TESTS") G) as [B|B]; try (left; reflexivity);
    rewrite A, B, ?truth_on, ?truth_off; eexists; reflexivity.
Qed.
Lemma docs_lemma keep v v' : given_on_off v -> configure keep v = Some v' -> value v (s "BUILD_DOCS") = None ->
  value v' (s "BUILD_DOCS") = Some (s "ON") /\ (value v' (s "BUILD_ALL") = Some (s "ON") \/ value v' (s "BUILD_DOCS_TESTS") = Some (s "ON")) \/
  value v' (s "BUILD_DOCS") = Some (s "OFF") /\ value v' (s "BUILD_ALL") = Some (s "OFF") /\ value v' (s "BUILD_DOCS_TESTS") = Some (s "OFF").
Proof.
  intros G C N. rewrite configure_parts in C. assert (N1 : value (part1 v) (s "BUILD_DOCS") = None) by (unfold part1; cbv zeta; rewrite !other_default by discriminate; exact N).
  assert (K : forall v2 x, part2 (part1 v) = Some v2 -> In x [s "BUILD_DOCS_TESTS"; s "BUILD_ALL"] -> value (part4 keep (part3 v2)) x = value (part1 v) x).
  { intros v2 x P I. rewrite part4_other by (dis I). rewrite <- (part2_other _ _ x P) by (dis I).
    unfold part3; cbv zeta. rewrite !other_default; [reflexivity|dis I..]. }
  unfold part2, defined, docs_value, expand in C. rewrite N1 in C.
  destruct (part2 (part1 v)) as [v2|] eqn:P.
  2:{ unfold part2, defined, docs_value, expand in P. rewrite N1 in P.
      destruct (on_off_part1 v (s "BUILD_ALL") G) as [A|A]; [cbn; auto| |]; destruct (on_off_part1 v (s "BUILD_DOCS_TESTS") G) as [B|B]; try (left; reflexivity); rewrite A, B in P; discriminate. }
  pose proof (K v2 (s "BUILD_ALL") eq_refl ltac:(cbn; auto)) as KA. pose proof (K v2 (s "BUILD_DOCS_TESTS") eq_refl ltac:(cbn; auto)) as KD.
  assert (E : v' = part4 keep (part3 v2)).
  { unfold part2, defined, docs_value, expand in P. rewrite N1 in P. rewrite P in C. injection C as <-. reflexivity. }
  subst v'. rewrite KA, KD. clear C K KA KD.
  unfold part2, defined, docs_value, expand in P. rewrite N1 in P.
  assert (V : forall t, t <> [] -> v2 = set (part1 v) (s "BUILD_DOCS") t -> value (part4 keep (part3 v2)) (s "BUILD_DOCS") = Some t).
  { intros t T ->. rewrite part4_other by discriminate. unfold part3; cbv zeta. rewrite !other_default by discriminate. rewrite value_set. eqs. destruct t; [congruence|reflexivity]. }
  destruct (on_off_part1 v (s "BUILD_ALL") G) as [A|A]; [cbn; auto| |]; destruct (on_off_part1 v (s "BUILD_DOCS_TESTS") G) as [B|B]; try (left; reflexivity);
    rewrite A, B, ?truth_on, ?truth_off in P; cbn [orb] in P; apply some_inj in P; symmetry in P; pose proof (fun T => V _ T P) as W; rewrite (W ltac:(discriminate)), A, B; auto.
Qed.

Lemma default_lemma keep v v' x t : configure keep v = Some v' -> documented (value v') x t -> x <> s "BUILD_DOCS" -> x <> s "LOG_INFO" -> value v x = None -> t <> [] -> value v' x = Some t.
Proof.
  intros C D ND NL E T. rewrite configure_parts in C. destruct (part2 (part1 v)) as [v2|] eqn:P; [|discriminate]. apply some_inj in C. subst v'.
  assert (K : forall y, In y [s "BUILD_TESTS"; s "BUILD_DOCS_TESTS"; s "BUILD_TOOL_TESTS"; s "BUILD_LIBRARY_TESTS"; s "BUILD_ALL"] -> value (part4 keep (part3 v2)) y = value (part1 v) y).
  { intros y I. rewrite part4_other by (dis I). rewrite <- (part2_other _ _ y P) by (dis I).
    unfold part3; cbv zeta. rewrite !other_default; [reflexivity|dis I..]. }
  assert (Z : forall y, In y [s "BUILD_TOOL"; s "BUILD_LIBRARY"; s "CODE_COVERAGE"; s "TSAN_BUILD"; s "ASAN_BUILD"; s "CMAKE_BUILD_TYPE"] -> value v y = None -> value v2 y = None).
  { intros y I F. rewrite (part2_other _ _ y P) by (dis I). unfold part1; cbv zeta. rewrite !other_default; [exact F|dis I..]. }
  destruct D as [|x t I F|t F|x I|x I|]; try congruence.
  - rewrite K by (left; reflexivity). rewrite tests_value, E. reflexivity.
  - rewrite K in F by (left; reflexivity). rewrite K by (right; exact I). rewrite as_tests by exact I. rewrite E. rewrite tests_value in F. apply some_inj in F. rewrite F. destruct t; [congruence|reflexivity].
  - rewrite part4_other by exact NL. assert (Y : value v2 x = None) by (apply Z; [cbn in *; intuition|exact E]).
    cbn [In] in I. destruct I as [<-|[<-|[]]]; unfold part3; cbv zeta; rewrite !value_default; eqs; rewrite Y; reflexivity.
  - rewrite part4_other by exact NL. cbn [In] in I. destruct I as [<-|[<-|[<-|[<-|[]]]]]; try congruence; (assert (Y := fun I => Z _ I E); specialize (Y ltac:(cbn; intuition))); unfold part3; cbv zeta; rewrite !value_default; eqs; rewrite Y; reflexivity.
  - rewrite part4_other by exact NL. assert (Y := fun I => Z _ I E); specialize (Y ltac:(cbn; intuition)). unfold part3; cbv zeta; rewrite !value_default; eqs; rewrite Y; reflexivity.
Qed.

(** LOG_INFO *)
Lemma before_log v v2 : part2 (part1 v) = Some v2 -> (forall y, y = s "LOG_INFO" -> normal (part3 v2) y = normal v y /\ cached (part3 v2) y = cached v y).
Proof.
  intros P y ->. assert (A : forall x t u, x <> s "LOG_INFO" -> normal (default x t u) (s "LOG_INFO") = normal u (s "LOG_INFO") /\ cached (default x t u) (s "LOG_INFO") = cached u (s "LOG_INFO")).
  { intros x t u N. unfold default, set, update. destruct (defined u x); [auto|]. cbn [normal cached]. replace (str_eqb (s "LOG_INFO") x) with false; [auto|]. symmetry. apply str_eqb_neq. congruence. }
  assert (B : normal v2 (s "LOG_INFO") = normal (part1 v) (s "LOG_INFO") /\ cached v2 (s "LOG_INFO") = cached (part1 v) (s "LOG_INFO")).
  { unfold part2 in P. destruct (defined (part1 v) (s "BUILD_DOCS")); [injection P as <-; auto|]. destruct (docs_value (part1 v)) as [dv|]; [|discriminate]. apply some_inj in P. rewrite <- P. split; reflexivity. }
  unfold part3; cbv zeta. rewrite !(fun x t u N => proj1 (A x t u N)) by discriminate. rewrite !(fun x t u N => proj2 (A x t u N)) by discriminate.
  destruct B as [-> ->]. unfold part1; cbv zeta. rewrite !(fun x t u N => proj1 (A x t u N)) by discriminate. rewrite !(fun x t u N => proj2 (A x t u N)) by discriminate. auto.
Qed.
Lemma log_lemma keep v v' : configure keep v = Some v' -> value v (s "LOG_INFO") = None ->
  value v' (s "LOG_INFO") = Some (if str_eqb (expand v' (s "CMAKE_BUILD_TYPE")) (s "Debug") then s "ON" else []).
Proof.
  intros C N. rewrite configure_parts in C. destruct (part2 (part1 v)) as [v2|] eqn:P; [|discriminate]. apply some_inj in C. subst v'.
  destruct (before_log v v2 P _ eq_refl) as [A B]. unfold expand. rewrite (part4_other keep (part3 v2) (s "CMAKE_BUILD_TYPE")) by discriminate. fold (expand (part3 v2) (s "CMAKE_BUILD_TYPE")).
  unfold part4, defined, value at 1 2. unfold value in N. rewrite A, B. destruct (normal v (s "LOG_INFO")) as [dn|]; [discriminate|]. destruct (cached v (s "LOG_INFO")) eqn:D; [discriminate|]. cbn [option_map negb andb].
  destruct (str_eqb (expand (part3 v2) (s "CMAKE_BUILD_TYPE")) (s "Debug")); [reflexivity|].
  unfold set_cache. rewrite B, ?D. unfold update. cbn [normal cached]. eqs. destruct keep; [rewrite A|]; reflexivity.
Qed.
Lemma log_given_lemma keep v v' w : configure keep v = Some v' -> normal v (s "LOG_INFO") = None -> value v (s "LOG_INFO") = Some w -> value v' (s "LOG_INFO") = Some w.
Proof.
  intros C N E. rewrite configure_parts in C. destruct (part2 (part1 v)) as [v2|] eqn:P; [|discriminate]. apply some_inj in C. subst v'.
  destruct (before_log v v2 P _ eq_refl) as [A B]. unfold value in E. rewrite N in E. destruct (cached v (s "LOG_INFO")) as [[ty t]|] eqn:D; [|discriminate]. injection E as <-.
  unfold part4, defined, value at 1 2. rewrite A, B, N. cbn [option_map negb andb snd]. unfold set_cache. rewrite B. destruct ty.
  - rewrite A, N, B. reflexivity.
  - unfold update. cbn [normal cached]. eqs. destruct keep; [rewrite A, N|]; reflexivity.
Qed.
