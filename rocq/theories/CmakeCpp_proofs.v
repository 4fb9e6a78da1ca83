(** Proofs of C147 and C148. *)
From Coq Require Import Lia.
From Verif Require Cmake_proofs.
From Verif Require Import Str_spec Str_proofs Cmake_model CmakeOpt_model CmakeSet_model CmakeSet_spec CmakeSet_proofs CmakeCpp_model CmakeCpp_spec.

(** ** conditions *)
Lemma off_false t : false_text t -> is_off t = true.
Proof.
  intros [-> |[(w & u & I & U & E)|(a & ->)]].
  - reflexivity.
  - rewrite (uppercase_unique _ _ U) in E. unfold is_off. destruct t as [|c t']; [reflexivity|].
    apply Bool.orb_true_iff. left. unfold one_of. apply existsb_exists. exists w. split; [exact I|]. rewrite E. apply str_eqb_eq. reflexivity.
  - unfold is_off. destruct (a ++ s "-NOTFOUND") as [|c t'] eqn:E; [destruct a; discriminate|]. rewrite <- E.
    apply Bool.orb_true_iff. right. rewrite rev_app_distr. apply Cmake_proofs.prefixb_iff. eauto.
Qed.
Lemma truthy_enabled v x : truthy v x = true <-> enabled v x.
Proof.
  unfold truthy, enabled. split.
  - destruct (value v x) as [t|]; [|discriminate]. intro H. exists t. split; [reflexivity|]. intro F. rewrite (off_false _ F) in H. discriminate.
  - intros (t & -> & N). now rewrite (not_off _ N).
Qed.
Lemma truthy_not v x : truthy v x = false <-> ~ enabled v x.
Proof. rewrite <- truthy_enabled. now rewrite Bool.not_true_iff_false. Qed.

(** ** versions *)
Definition dec := Forall (fun c => In c (s "0123456789")).
Lemma digit_in c : digit c = true <-> In c (s "0123456789").
Proof. destruct c as [[] [] [] [] [] [] [] []]; vm_compute; split; intro H; try reflexivity; try discriminate; repeat (destruct H as [H|H]; [discriminate|]); try destruct H; auto 20. Qed.
Lemma nonzero_in c : digit c && negb (Ascii.eqb c "0") = true <-> In c (s "123456789").
Proof. destruct c as [[] [] [] [] [] [] [] []]; vm_compute; split; intro H; try reflexivity; try discriminate; repeat (destruct H as [H|H]; [discriminate|]); try destruct H; auto 20. Qed.
Lemma digit_dot c : digit c = true -> dot c = false.
Proof. destruct c as [[] [] [] [] [] [] [] []]; vm_compute; auto; discriminate. Qed.
Lemma dec_facts n : dec n -> forallb (fun c => digit c || dot c) n = true /\ length (filter dot n) = 0.
Proof.
  induction 1 as [|c n I D [A B]]; [split; reflexivity|]. apply digit_in in I. cbn [forallb filter]. rewrite I, (digit_dot _ I), A. split; [reflexivity|exact B].
Qed.
Lemma version_facts t k : version t k -> forallb (fun c => digit c || dot c) t = true /\ length (filter dot t) = k - 1 /\ existsb digit t = true /\ 0 < k /\ t <> [].
Proof.
  assert (X : forall n, n <> [] -> dec n -> existsb digit n = true).
  { intros [|c n] N D; [congruence|]. inversion D as [|? ? I ?]; subst. apply digit_in in I. cbn [existsb]. now rewrite I. }
  induction 1 as [n N D|n t k N D V (A & B & C & P & _)].
  - destruct (dec_facts n D) as [A B]. repeat split; auto with arith.
  - destruct (dec_facts n D) as [A' B']. rewrite forallb_app, filter_app, app_length, A', B'. rewrite existsb_app, (X n N D).
    change (s "." ++ t) with ("."%char :: t). cbn [forallb filter]. change (dot ".") with true. cbn [length]. rewrite Bool.orb_true_r, A, B. repeat split; try lia. destruct n; discriminate.
Qed.
Lemma not_zero_existsb t : existsb (fun c => digit c && negb (Ascii.eqb c "0")) t = true <-> not_zero t.
Proof.
  unfold not_zero. rewrite existsb_exists. split; intros (c & A & B); exists c; apply nonzero_in in B || apply nonzero_in in A; tauto.
Qed.
Lemma number_version t k : version t k -> number t = if k <=? 2 then Some (existsb (fun c => digit c && negb (Ascii.eqb c "0")) t) else None.
Proof.
  intro V. destruct (version_facts t k V) as (A & B & C & P & _). unfold number. rewrite A, B, C. cbn [andb].
  destruct (k <=? 2) eqn:K; [apply Nat.leb_le in K|apply Nat.leb_gt in K];
    [assert (L : (k - 1 <=? 1) = true) by (apply Nat.leb_le; lia)|assert (L : (k - 1 <=? 1) = false) by (apply Nat.leb_gt; lia)]; now rewrite L.
Qed.

(** texts of digits and dots that are constants *)
Lemma upper_numeric c : digit c || dot c = true -> upper c = c.
Proof. destruct c as [[] [] [] [] [] [] [] []]; vm_compute; auto; discriminate. Qed.
Lemma map_upper_numeric t : forallb (fun c => digit c || dot c) t = true -> map upper t = t.
Proof. induction t as [|c t IH]; [reflexivity|]. cbn [forallb map]. intro H. apply andb_prop in H. destruct H as [A B]. rewrite (upper_numeric _ A), (IH B). reflexivity. Qed.
Lemma existsb_cons {A} f (a : A) l : existsb f (a :: l) = f a || existsb f l.
Proof. reflexivity. Qed.
Lemma eqb_text_no w t : forallb (fun c => digit c || dot c) t = true -> forallb (fun c => digit c || dot c) w = false -> str_eqb w t = false.
Proof. intros A B. apply not_true_iff_false. intro E. apply str_eqb_eq in E. subst. congruence. Qed.
Lemma is_on_numeric t : forallb (fun c => digit c || dot c) t = true -> is_on t = str_eqb (s "1") t.
Proof.
  intro A. unfold is_on, one_of. rewrite (map_upper_numeric _ A). rewrite !existsb_cons.
  rewrite (eqb_text_no (s "ON") t A eq_refl), (eqb_text_no (s "YES") t A eq_refl), (eqb_text_no (s "TRUE") t A eq_refl), (eqb_text_no (s "Y") t A eq_refl). cbn [existsb]. now rewrite !Bool.orb_false_r.
Qed.
Lemma prefixb_no_numeric t : forallb (fun c => digit c || dot c) t = true -> prefixb (rev (s "-NOTFOUND")) (rev t) = false.
Proof.
  intro A. destruct (rev t) as [|c r] eqn:R; [reflexivity|]. assert (I : In c t) by (apply in_rev; rewrite R; now left).
  rewrite forallb_forall in A. specialize (A c I). change (rev (s "-NOTFOUND")) with (s "DNUOFTON-"). destruct c as [[] [] [] [] [] [] [] []]; try discriminate A; reflexivity.
Qed.
Lemma is_off_numeric t : t <> [] -> forallb (fun c => digit c || dot c) t = true -> is_off t = str_eqb (s "0") t.
Proof.
  intros N A. unfold is_off. destruct t as [|c t']; [congruence|]. rewrite (prefixb_no_numeric _ A). unfold one_of. rewrite (map_upper_numeric _ A). rewrite !existsb_cons.
  rewrite (eqb_text_no (s "OFF") _ A eq_refl), (eqb_text_no (s "NO") _ A eq_refl), (eqb_text_no (s "FALSE") _ A eq_refl), (eqb_text_no (s "N") _ A eq_refl), (eqb_text_no (s "IGNORE") _ A eq_refl), (eqb_text_no (s "NOTFOUND") _ A eq_refl).
  cbn [existsb]. now rewrite !Bool.orb_false_r.
Qed.
Lemma condition_version v t k : version t k -> condition v t = if k <=? 2 then existsb (fun c => digit c && negb (Ascii.eqb c "0")) t else truthy v t.
Proof.
  intro V. destruct (version_facts t k V) as (A & B & C & P & N). unfold condition. destruct t as [|c t'] eqn:T; [congruence|]. rewrite <- T in *.
  rewrite (is_on_numeric t A), (is_off_numeric t N A), (number_version t k V).
  destruct (str_eqb (s "1") t) eqn:E1; [apply str_eqb_eq in E1; rewrite <- E1 in *|destruct (str_eqb (s "0") t) eqn:E0; [apply str_eqb_eq in E0; rewrite <- E0 in *|]].
  - assert (L : (k <=? 2) = true) by (apply Nat.leb_le; cbn in B; lia). rewrite L. reflexivity.
  - assert (L : (k <=? 2) = true) by (apply Nat.leb_le; cbn in B; lia). rewrite L. reflexivity.
  - destruct (k <=? 2); reflexivity.
Qed.
Lemma look_asked v p : sensible v p -> asked v p (look_for v p).
Proof.
  intro H. unfold look_for. change (p ++ s "_MINIMUM_VERSION") with (minimum_version p). unfold expand. destruct (value v (minimum_version p)) as [t|] eqn:E.
  - destruct (H t E) as [-> |(k & V)].
    + cbn [condition]. apply asked_unset. intros t0 F. congruence.
    + rewrite (condition_version v t k V). destruct (k <=? 2) eqn:K.
      * apply Nat.leb_le in K. destruct (existsb _ t) eqn:X.
        -- eapply asked_short; eauto. now apply not_zero_existsb.
        -- eapply asked_zero; eauto. intro Z. apply not_zero_existsb in Z. congruence.
      * apply Nat.leb_gt in K. destruct (truthy v t) eqn:X; [apply truthy_enabled in X; eapply asked_variable; eauto|apply truthy_not in X; eapply asked_long; eauto].
  - cbn [condition]. apply asked_unset. intros t F. congruence.
Qed.
Lemma version_unique t k k' : version t k -> version t k' -> k = k'.
Proof. intros A B. apply version_facts in A, B. lia. Qed.
Lemma asked_look v p c : asked v p c -> c = look_for v p.
Proof.
  intro H. unfold look_for. change (p ++ s "_MINIMUM_VERSION") with (minimum_version p). unfold expand.
  destruct H as [U|t k E V K Z|t k E V K Z|t k E V K Z|t k E V K Z].
  - destruct (value v (minimum_version p)) as [t|]; [rewrite (U t eq_refl)|]; reflexivity.
  - rewrite E, (condition_version v t k V). apply Nat.leb_le in K. rewrite K. apply not_zero_existsb in Z. now rewrite Z.
  - rewrite E, (condition_version v t k V). apply Nat.leb_le in K. rewrite K. destruct (existsb _ t) eqn:X; [apply not_zero_existsb in X; tauto|reflexivity].
  - rewrite E, (condition_version v t k V). apply Nat.leb_gt in K. rewrite K. apply truthy_not in Z. now rewrite Z.
  - rewrite E, (condition_version v t k V). apply Nat.leb_gt in K. rewrite K. apply truthy_enabled in Z. now rewrite Z.
Qed.

(** ** lists *)
Lemma split_step t : forall r cur, (forall c, In c t -> ~ In c (s ";[]\")) -> split_list (t ++ r) 0 cur = split_list r 0 (cur ++ t).
Proof.
  induction t as [|c t IH]; intros r cur N; [now rewrite app_nil_r|].
  assert (C : ~ In c (s ";[]\")) by (apply N; now left).
  assert (T : forall d, In d t -> ~ In d (s ";[]\")) by (intros d I; apply N; now right).
  assert (K : forall d, In d (s ";[]\") -> Ascii.eqb c d = false) by (intros d I; apply Ascii.eqb_neq; intros ->; exact (C I)).
  cbn [app split_list]. rewrite (K ";"%char), (K "\"%char), (K "["%char), (K "]"%char) by (cbn; auto 10). rewrite (IH r (cur ++ [c]) T), <- app_assoc. reflexivity.
Qed.
Lemma list_split t l : list_of t l -> l <> [] -> split_list t 0 [] = l.
Proof.
  induction 1 as [|t [N S0]|t r a l [N S0] R IH]; intro X; [congruence| |].
  - rewrite <- (app_nil_r t) at 1. rewrite (split_step t [] [] S0). reflexivity.
  - rewrite (split_step t _ [] S0). change (s ";" ++ r) with (";"%char :: r). cbn [split_list app]. change (Ascii.eqb ";" ";") with true. cbv iota. change (0 =? 0)%Z with true. cbv iota. f_equal. apply IH. discriminate.
Qed.
Lemma list_simple t l : list_of t l -> Forall simple l.
Proof. induction 1; auto. Qed.
Lemma list_arguments t l : list_of t l -> arguments t = l.
Proof.
  intro L. pose proof (list_simple t l L) as F. unfold arguments, elements.
  assert (E : (if existsb (Ascii.eqb ";") t then split_list t 0 [] else [t]) = match t with [] => [[]] | _ => l end).
  { destruct t as [|c t']; [reflexivity|]. destruct l as [|a l]; [inversion L|]. destruct (existsb (Ascii.eqb ";") (c :: t')) eqn:X.
    - apply list_split; [exact L|discriminate].
    - inversion L as [|? ?|t r b l' S0 R E1 E2]; subst; [reflexivity|]. exfalso. rewrite <- E1, existsb_app in X. change (s ";" ++ r) with (";"%char :: r) in X. cbn in X. rewrite Bool.orb_true_r in X. discriminate. }
  rewrite E. destruct t as [|c t'].
  - inversion L as [|t [N _]|t r a l' [N _] R E1]; [reflexivity|congruence|]. destruct t; discriminate.
  - clear E L. induction F as [|x l [N _] F IH]; [reflexivity|]. cbn [filter]. destruct x; [congruence|]. cbn [nonempty]. now rewrite IH.
Qed.

(** ** packages *)
Lemma find_some found v names calls : find_projects found v names = Some calls <-> calls = map (look_for v) names /\ Forall (fun c => found c = true) calls.
Proof.
  revert calls. induction names as [|n names IH]; intro calls; cbn [find_projects map].
  - split; [intro H; apply some_inj in H; subst; auto|]. intros [-> _]. reflexivity.
  - destruct (found (look_for v n)) eqn:E.
    + destruct (find_projects found v names) as [l|] eqn:F; cbn [option_map].
      * destruct (proj1 (IH l) eq_refl) as [-> Y]. split; [intro H; apply some_inj in H; subst; auto|]. intros [-> _]. reflexivity.
      * split; [discriminate|]. intros [-> Y]. inversion Y; subst. assert (K : None = Some (map (look_for v) names)) by (apply IH; auto). discriminate.
    + split; [discriminate|]. intros [-> Y]. inversion Y; subst. congruence.
Qed.
Lemma find_none found v names : find_projects found v names = None <-> exists p, In p names /\ found (look_for v p) = false.
Proof.
  induction names as [|n names IH]; cbn [find_projects].
  - split; [discriminate|]. intros (p & [] & _).
  - destruct (found (look_for v n)) eqn:E.
    + destruct (find_projects found v names) as [l|] eqn:F; cbn [option_map].
      * split; [discriminate|]. intros (p & [<- |I] & X); [congruence|]. assert (K : Some l = None) by (apply IH; eauto). discriminate.
      * split; [|reflexivity]. intros _. destruct (proj1 IH eq_refl) as (p & I & X). exists p. split; [now right|exact X].
    + split; [|reflexivity]. intros _. exists n. split; [now left|exact E].
Qed.

(** ** the variables that are set *)
Lemma value_append x t v y : value (append x t v) y = if str_eqb y x then Some (expand v x ++ s " " ++ t) else value v y.
Proof. unfold append. apply value_text. Qed.
Lemma other_text v x t y : y <> x -> value (set_text v x t) y = value v y.
Proof. intro N. rewrite value_text. apply str_eqb_neq in N. now rewrite N. Qed.
Lemma other_append x t v y : y <> x -> value (append x t v) y = value v y.
Proof. apply other_text. Qed.
Lemma other_build keep v y : y <> s "CMAKE_BUILD_TYPE" -> value (build_type keep v) y = value v y.
Proof.
  intro N. apply str_eqb_neq in N. unfold build_type. cbv zeta. destruct (negb _ && negb _); [|reflexivity]. unfold value, update. cbn [normal cached]. rewrite N. destruct keep; [reflexivity|]. now rewrite N.
Qed.
Lemma other_shared v y : y <> s "BUILD_SHARED_LIBS" -> value (shared_libs v) y = value v y.
Proof.
  intro N. apply str_eqb_neq in N. unfold shared_libs. cbv zeta. destruct (value v (s "BUILD_SHARED_LIBS")); [reflexivity|]. unfold value, update. cbn [normal cached]. now rewrite N.
Qed.
Lemma other_custom comp v y : y <> s "CMAKE_CXX_FLAGS" -> value (custom comp v) y = value v y.
Proof. intro N. unfold custom. destruct (msvc comp); [now apply other_append|reflexivity]. Qed.

Lemma matches_contains t p : matches t p = true <-> contains t p.
Proof.
  unfold matches. rewrite sfind_contains. destruct (sfind p t) as [i|]; split; eauto; try discriminate. intros (i & E). discriminate.
Qed.
Lemma llvm_clang comp : llvm comp = true <-> clang comp.
Proof.
  unfold llvm, clang. cbv zeta. rewrite !Bool.orb_true_iff, !matches_contains. split.
  - intros [[H|H]|[H|H]]; [exists (c_id comp), (s "Clang")|exists (c_id comp), (s "clang")|exists (cxx_id comp), (s "Clang")|exists (cxx_id comp), (s "clang")]; auto.
  - intros (t & p & [-> | -> ] & [-> | -> ] & H); auto.
Qed.
Lemma llvm_not comp : llvm comp = false <-> ~ clang comp.
Proof. rewrite <- llvm_clang. now rewrite Bool.not_true_iff_false. Qed.

(** ** the standard *)
Lemma eqb_either t a b : str_eqb t a || str_eqb t b = true -> t = a \/ t = b.
Proof. intro H. apply Bool.orb_true_iff in H. destruct H as [H|H]; apply str_eqb_eq in H; auto. Qed.
Lemma force_in comp t n v : In (t, n) standards -> force_cpp comp t v = force comp n v.
Proof.
  intro I. unfold standards in I. cbn [In] in I.
  repeat (destruct I as [I|I]; [pose proof (f_equal fst I) as A; pose proof (f_equal snd I) as B; cbn [fst snd] in A, B; rewrite <- A, <- B; reflexivity|]). destruct I.
Qed.
Lemma force_not comp t v : t <> [] -> ~ (exists n, In (t, n) standards) -> force_cpp comp t v = None.
Proof.
  intros N H. unfold force_cpp. assert (E : str_eqb t [] = false) by now apply str_eqb_neq. rewrite E.
  destruct (str_eqb t (s "11") || str_eqb t (s "C++11")) eqn:E1; [exfalso; apply H; exists (s "11"); apply eqb_either in E1; destruct E1 as [-> | -> ]; cbn [standards In]; auto 10|].
  destruct (str_eqb t (s "14") || str_eqb t (s "C++14")) eqn:E2; [exfalso; apply H; exists (s "14"); apply eqb_either in E2; destruct E2 as [-> | -> ]; cbn [standards In]; auto 10|].
  destruct (str_eqb t (s "17") || str_eqb t (s "C++17")) eqn:E3; [exfalso; apply H; exists (s "17"); apply eqb_either in E3; destruct E3 as [-> | -> ]; cbn [standards In]; auto 10|].
  destruct (str_eqb t (s "20") || str_eqb t (s "C++20")) eqn:E4; [exfalso; apply H; exists (s "20"); apply eqb_either in E4; destruct E4 as [-> | -> ]; cbn [standards In]; auto 10|]. reflexivity.
Qed.
Lemma standard_dec t : {exists n, In (t, n) standards} + {~ exists n, In (t, n) standards}.
Proof.
  destruct (existsb (fun c => str_eqb t (fst c)) standards) eqn:E; [left|right].
  - apply existsb_exists in E. destruct E as ([u n] & I & E). apply str_eqb_eq in E. cbn [fst] in E. subst. eauto.
  - intros (n & I). rewrite <- Bool.not_true_iff_false in E. apply E. apply existsb_exists. exists (t, n). split; [exact I|]. apply str_eqb_refl.
Qed.
Lemma standard_nonempty t n : In (t, n) standards -> t <> [] /\ ~ In ";"%char t.
Proof.
  intro I. unfold standards in I. cbn [In] in I.
  repeat (destruct I as [I|I]; [pose proof (f_equal fst I) as A; cbn [fst] in A; rewrite <- A; split; [discriminate|]; intro J; apply (in_dec_false J); reflexivity|]). destruct I.
Qed.
Lemma checked_bool comp : gnucxx comp || clang_var comp || matches (cxx_id comp) (s "Clang") = true <-> checked comp.
Proof. unfold checked. rewrite !Bool.orb_true_iff, matches_contains. tauto. Qed.
Lemma cpp_none comp v : value v (s "MODULE_CPP_VERSION") = None -> cpp_version comp v = Some v.
Proof. intro E. unfold cpp_version, defined. now rewrite E. Qed.
Lemma cpp_in comp v t n : value v (s "MODULE_CPP_VERSION") = Some t -> In (t, n) standards -> cpp_version comp v = force comp n v.
Proof.
  intros E I. unfold cpp_version, defined, expand. rewrite E. rewrite (plain_arguments t (standard_nonempty t n I)). now apply force_in.
Qed.
Lemma cpp_not comp v t : value v (s "MODULE_CPP_VERSION") = Some t -> ~ In ";"%char t -> ~ (exists n, In (t, n) standards) -> cpp_version comp v = None.
Proof.
  intros E S0 N. unfold cpp_version, defined, expand. rewrite E. destruct t as [|c t']; [reflexivity|].
  rewrite (plain_arguments (c :: t')) by (split; [discriminate|exact S0]). apply force_not; [discriminate|exact N].
Qed.
Lemma cpp_shape comp v w : cpp_version comp v = Some w -> w = v \/ exists n, w = set_text v (s "CMAKE_CXX_STANDARD") n.
Proof.
  assert (F : forall n, force comp n v = Some w -> exists n, w = set_text v (s "CMAKE_CXX_STANDARD") n).
  { intros n. unfold force. destruct (_ && _); [discriminate|]. intro H. apply some_inj in H. eauto. }
  unfold cpp_version. destruct (defined v (s "MODULE_CPP_VERSION")); [|intro H; apply some_inj in H; auto].
  destruct (arguments _) as [|t l]; [discriminate|]. unfold force_cpp.
  repeat match goal with |- (if ?b then _ else _) = _ -> _ => destruct b end; intro H; try discriminate; try (apply some_inj in H; auto); right; eapply F; exact H.
Qed.
Lemma other_cpp comp v w y : cpp_version comp v = Some w -> y <> s "CMAKE_CXX_STANDARD" -> value w y = value v y.
Proof. intros H N. apply cpp_shape in H. destruct H as [-> |(n & ->)]; [reflexivity|now apply other_text]. Qed.

(** ** the flags *)
Lemma activate_some f g comp v w : activate f g comp v = Some w -> exists t, w = append (s "CMAKE_CXX_FLAGS") t (append (s "CMAKE_C_FLAGS") t v) /\
  (clang comp /\ t = f \/ ~ clang comp /\ gnucxx comp = true /\ t = g).
Proof.
  unfold activate. cbv zeta. destruct (llvm comp) eqn:L; [apply llvm_clang in L|apply llvm_not in L; destruct (gnucxx comp) eqn:G; [|discriminate]];
    intro H; apply some_inj in H; [exists f|exists g]; split; auto.
Qed.
Lemma activate_none f g comp v : activate f g comp v = None <-> ~ clang comp /\ gnucxx comp = false.
Proof.
  unfold activate. cbv zeta. destruct (llvm comp) eqn:L; [apply llvm_clang in L|apply llvm_not in L; destruct (gnucxx comp) eqn:G].
  - split; [discriminate|tauto].
  - split; [discriminate|intros [_ X]; discriminate].
  - split; auto.
Qed.
Lemma two_flags t v : let w := append (s "CMAKE_CXX_FLAGS") t (append (s "CMAKE_C_FLAGS") t v) in
  expand w (s "CMAKE_C_FLAGS") = expand v (s "CMAKE_C_FLAGS") ++ s " " ++ t /\ expand w (s "CMAKE_CXX_FLAGS") = expand v (s "CMAKE_CXX_FLAGS") ++ s " " ++ t /\
  forall y, y <> s "CMAKE_C_FLAGS" -> y <> s "CMAKE_CXX_FLAGS" -> value w y = value v y.
Proof.
  cbv zeta. split; [|split].
  - unfold expand at 1. rewrite other_append by discriminate. rewrite value_append, str_eqb_refl. reflexivity.
  - unfold expand at 1. rewrite value_append, str_eqb_refl. unfold expand at 1. rewrite other_append by discriminate. reflexivity.
  - intros y A B. now rewrite !other_append.
Qed.
(** one of the options *)
Definition flagged (v w : vars) (t : str) : Prop :=
  expand w (s "CMAKE_C_FLAGS") = expand v (s "CMAKE_C_FLAGS") ++ t /\ expand w (s "CMAKE_CXX_FLAGS") = expand v (s "CMAKE_CXX_FLAGS") ++ t /\
  forall y, y <> s "CMAKE_C_FLAGS" -> y <> s "CMAKE_CXX_FLAGS" -> value w y = value v y.
Lemma flagged_trans u v w a b : flagged u v a -> flagged v w b -> flagged u w (a ++ b).
Proof.
  intros (A1 & A2 & A3) (B1 & B2 & B3). unfold flagged. rewrite B1, B2, A1, A2, !app_assoc. repeat split. intros y X Y. now rewrite B3, A3.
Qed.
Lemma flagged_refl v : flagged v v [].
Proof. unfold flagged. rewrite !app_nil_r. auto. Qed.
Lemma flagged_truthy v w t x : flagged v w t -> x <> s "CMAKE_C_FLAGS" -> x <> s "CMAKE_CXX_FLAGS" -> truthy w x = truthy v x.
Proof. intros (_ & _ & E) A B. unfold truthy. now rewrite E. Qed.
Lemma when_some b f g comp v w : when b (activate f g comp) (Some v) = Some w ->
  exists t, flagged v w t /\ (b = false /\ t = [] \/ b = true /\ clang comp /\ t = s " " ++ f \/ b = true /\ ~ clang comp /\ gnucxx comp = true /\ t = s " " ++ g).
Proof.
  cbn [when]. destruct b; intro H.
  - apply activate_some in H. destruct H as (t & -> & T). exists (s " " ++ t). split; [apply two_flags|]. right. destruct T as [(C & -> )|(C & G & -> )]; auto.
  - apply some_inj in H. subst. exists []. split; [apply flagged_refl|auto].
Qed.
Lemma added_step v comp x f g l b t r :
  (b = true <-> enabled v x) -> (b = false /\ t = [] \/ b = true /\ clang comp /\ t = s " " ++ f \/ b = true /\ ~ clang comp /\ gnucxx comp = true /\ t = s " " ++ g) ->
  added v comp l r -> added v comp ((x, (s " " ++ f, s " " ++ g)) :: l) (t ++ r).
Proof.
  intros B [(E & -> )|[(E & C & -> )|(E & C & G & -> )]] A.
  - apply added_off; [|exact A]. intro K. apply B in K. congruence.
  - apply added_clang; auto. now apply B.
  - apply added_gcc; auto. now apply B.
Qed.
Lemma when_none b f : when b f None = None.
Proof. reflexivity. Qed.
Lemma instruments_some comp v w : instruments comp v = Some w -> exists t, flagged v w t /\ added v comp instruments_table t /\ ~ (enabled v (s "TSAN_BUILD") /\ enabled v (s "ASAN_BUILD")).
Proof.
  unfold instruments. cbv zeta. intro H.
  destruct (when (truthy v (s "CODE_COVERAGE")) (coverage comp) (Some v)) as [v1|] eqn:E1; [|discriminate].
  destruct (when_some _ _ _ _ _ _ E1) as (t1 & F1 & T1).
  destruct (when (truthy v (s "TSAN_BUILD")) (tsan comp) (Some v1)) as [v2|] eqn:E2; [|discriminate].
  destruct (when_some _ _ _ _ _ _ E2) as (t2 & F2 & T2). pose proof (flagged_trans _ _ _ _ _ F1 F2) as F12.
  assert (N : truthy v (s "ASAN_BUILD") = true -> truthy v (s "TSAN_BUILD") = false).
  { intro A. rewrite A in H. cbn [when] in H. rewrite (flagged_truthy _ _ _ (s "TSAN_BUILD") F12) in H by discriminate. destruct (truthy v (s "TSAN_BUILD")); [discriminate|reflexivity]. }
  assert (H' : when (truthy v (s "ASAN_BUILD")) (asan comp) (Some v2) = Some w).
  { destruct (truthy v (s "ASAN_BUILD")) eqn:A; [|exact H]. cbn [when] in *. rewrite (flagged_truthy _ _ _ (s "TSAN_BUILD") F12), (N eq_refl) in H by discriminate. exact H. }
  destruct (when_some _ _ _ _ _ _ H') as (t3 & F3 & T3). exists (t1 ++ t2 ++ t3 ++ []). split.
  - rewrite app_nil_r, app_assoc. exact (flagged_trans _ _ _ _ _ F12 F3).
  - split; [|rewrite <- !truthy_enabled; intros [X Y]; rewrite (N Y) in X; discriminate].
    unfold instruments_table. apply (added_step v comp _ _ _ _ _ _ _ (truthy_enabled v _) T1). apply (added_step v comp _ _ _ _ _ _ _ (truthy_enabled v _) T2).
    apply (added_step v comp _ _ _ _ _ _ _ (truthy_enabled v _) T3). apply added_none.
Qed.
Lemma instruments_none comp v : instruments comp v = None <->
  (exists x, In x [s "CODE_COVERAGE"; s "TSAN_BUILD"; s "ASAN_BUILD"] /\ enabled v x /\ ~ clang comp /\ gnucxx comp = false) \/ enabled v (s "TSAN_BUILD") /\ enabled v (s "ASAN_BUILD").
Proof.
  split.
  - unfold instruments. cbv zeta. intro H.
    destruct (when (truthy v (s "CODE_COVERAGE")) (coverage comp) (Some v)) as [v1|] eqn:E1.
    2: { left. exists (s "CODE_COVERAGE"). split; [now left|]. cbn [when] in E1. destruct (truthy v (s "CODE_COVERAGE")) eqn:T; [|discriminate]. apply truthy_enabled in T. split; [exact T|]. now apply activate_none in E1. }
    destruct (when_some _ _ _ _ _ _ E1) as (t1 & F1 & T1).
    destruct (when (truthy v (s "TSAN_BUILD")) (tsan comp) (Some v1)) as [v2|] eqn:E2.
    2: { left. exists (s "TSAN_BUILD"). split; [right; now left|]. cbn [when] in E2. destruct (truthy v (s "TSAN_BUILD")) eqn:T; [|discriminate]. apply truthy_enabled in T. split; [exact T|]. now apply activate_none in E2. }
    destruct (when_some _ _ _ _ _ _ E2) as (t2 & F2 & T2). pose proof (flagged_trans _ _ _ _ _ F1 F2) as F12.
    cbn [when] in H. destruct (truthy v (s "ASAN_BUILD")) eqn:A; [|discriminate]. apply truthy_enabled in A.
    rewrite (flagged_truthy _ _ _ (s "TSAN_BUILD") F12) in H by discriminate. destruct (truthy v (s "TSAN_BUILD")) eqn:T; [apply truthy_enabled in T; auto|].
    left. exists (s "ASAN_BUILD"). split; [right; right; now left|]. split; [exact A|]. now apply activate_none in H.
  - intro H. destruct (instruments comp v) as [w|] eqn:E; [|reflexivity]. apply instruments_some in E. destruct E as (t & _ & A & N). exfalso.
    destruct H as [(x & I & X & C & G)|B]; [|tauto]. 
    assert (K : forall l t, added v comp l t -> forall f, ~ In (x, f) l).
    { induction 1 as [|y f' l' t' Y A' IH|y f' g' l' t' Y C' A' IH|y f' g' l' t' Y C' G' A' IH]; intros f0 J; [destruct J| |congruence|congruence].
      destruct J as [J|J]; [|exact (IH _ J)]. apply (f_equal fst) in J. cbn [fst] in J. congruence. }
    destruct I as [<- |[<- |[<- |[]]]]; eapply (K _ _ A); unfold instruments_table; cbn [In]; eauto.
Qed.

(** ** the whole *)
Definition agree (v w : vars) : Prop := forall y, ~ In y set_variables -> value w y = value v y.
Lemma ends_digit t k : version t k -> exists a c, t = a ++ [c] /\ digit c = true.
Proof.
  induction 1 as [n N D|n t k N D V (a & c & -> & G)].
  - destruct (exists_last N) as (a & c & ->). exists a, c. split; [reflexivity|]. apply Forall_app in D. destruct D as [_ D]. inversion D; subst. now apply digit_in.
  - exists (n ++ s "." ++ a), c. rewrite <- !app_assoc. split; [reflexivity|exact G].
Qed.
Lemma last_set_variables a c : In (a ++ [c]) set_variables -> In c (s "ESDS").
Proof.
  intro I. unfold set_variables in I. cbn [In] in I.
  repeat (destruct I as [I|I]; [apply (f_equal (@rev ascii)) in I; rewrite rev_app_distr in I; cbn [rev app] in I; apply (f_equal (fun l => nth_error l 0)) in I; vm_compute in I; apply some_inj in I; rewrite <- I; cbn; auto 10|]). destruct I.
Qed.
Lemma version_not_set t k : version t k -> ~ In t set_variables.
Proof.
  intros V I. destruct (ends_digit t k V) as (a & c & -> & G). apply last_set_variables in I. cbn in I. repeat (destruct I as [<- |I]; [discriminate|]). destruct I.
Qed.
Lemma minimum_not_set p : ~ In (minimum_version p) set_variables.
Proof.
  unfold minimum_version. change (s "_MINIMUM_VERSION") with (s "_MINIMUM_VERSIO" ++ s "N"). rewrite app_assoc. intro I. apply last_set_variables in I. cbn in I. repeat (destruct I as [I|I]; [discriminate|]). destruct I.
Qed.
Lemma asked_agree v w p c : agree v w -> asked v p c -> asked w p c.
Proof.
  intros G H. pose proof (G _ (minimum_not_set p)) as M.
  assert (X : forall t k, version t k -> enabled w t <-> enabled v t) by (intros t k V; unfold enabled; rewrite (G t (version_not_set t k V)); tauto).
  destruct H as [U|t k E V K Z|t k E V K Z|t k E V K Z|t k E V K Z]; rewrite <- M in *.
  - now apply asked_unset.
  - eapply asked_short; eauto.
  - eapply asked_zero; eauto.
  - eapply asked_long; eauto. rewrite (X t k V). exact Z.
  - eapply asked_variable; eauto. rewrite (X t k V). exact Z.
Qed.
Lemma agree_build keep v : agree v (build_type keep v).
Proof. intros y N. apply other_build. intros ->. apply N. cbn; auto. Qed.
Lemma agree_shared v : agree v (shared_libs v).
Proof. intros y N. apply other_shared. intros ->. apply N. cbn; auto. Qed.
Lemma agree_cpp comp v w : cpp_version comp v = Some w -> agree v w.
Proof. intros H y N. apply (other_cpp _ _ _ _ H). intros ->. apply N. cbn; auto 10. Qed.
Lemma agree_trans u v w : agree u v -> agree v w -> agree u w.
Proof. intros A B y N. now rewrite (B y N), (A y N). Qed.
Lemma agree_flagged v w t : flagged v w t -> agree v w.
Proof. intros (_ & _ & E) y N. apply E; intros ->; apply N; cbn; auto 10. Qed.
Lemma agree_custom comp v : agree v (custom comp v).
Proof. intros y N. apply other_custom. intros ->. apply N. cbn; auto 10. Qed.
Lemma configure_inv keep comp found v w calls : configure_cpp keep comp found v = Some (w, calls) -> exists v1 v3,
  cpp_version comp (build_type keep v) = Some v1 /\ find_projects found (shared_libs v1) (arguments (expand (shared_libs v1) (s "MODULE_FIND_PACKAGES"))) = Some calls /\
  instruments comp (shared_libs v1) = Some v3 /\ w = custom comp v3.
Proof.
  unfold configure_cpp. cbv zeta. destruct (cpp_version comp (build_type keep v)) as [v1|]; [|discriminate].
  destruct (find_projects found _ _) as [l|] eqn:F; [|discriminate]. destruct (instruments comp (shared_libs v1)) as [v3|] eqn:EI; [|discriminate].
  intro H. apply some_inj in H. exists v1, v3. pose proof (f_equal fst H) as A. pose proof (f_equal snd H) as B. cbn [fst snd] in A, B. subst l w. auto.
Qed.
Lemma before keep comp v v1 : cpp_version comp (build_type keep v) = Some v1 -> agree v (shared_libs v1).
Proof. intro H. eapply agree_trans; [apply agree_build|]. eapply agree_trans; [exact (agree_cpp _ _ _ H)|apply agree_shared]. Qed.
Lemma not_set x : existsb (str_eqb x) set_variables = false -> ~ In x set_variables.
Proof. intros H I. rewrite <- Bool.not_true_iff_false in H. apply H. apply existsb_exists. exists x. split; [exact I|apply str_eqb_refl]. Qed.
Lemma agree_expand v w x : agree v w -> existsb (str_eqb x) set_variables = false -> expand w x = expand v x.
Proof. intros G H. unfold expand. now rewrite (G x (not_set x H)). Qed.
Lemma agree_enabled v w x : agree v w -> existsb (str_eqb x) set_variables = false -> enabled w x <-> enabled v x.
Proof. intros G H. unfold enabled. rewrite (G x (not_set x H)). tauto. Qed.
Lemma look_agree v w p : agree v w -> sensible v p -> look_for w p = look_for v p.
Proof. intros G S0. symmetry. apply asked_look. apply (asked_agree v w p _ G). now apply look_asked. Qed.

Lemma calls_lemma keep comp found v w calls names : configure_cpp keep comp found v = Some (w, calls) -> list_of (expand v (s "MODULE_FIND_PACKAGES")) names -> Forall (sensible v) names ->
  Forall2 (asked v) names calls /\ Forall (fun c => found c = true) calls.
Proof.
  intros H L F. apply configure_inv in H. destruct H as (v1 & v3 & E1 & E2 & _ & _). pose proof (before keep comp v v1 E1) as G.
  rewrite (agree_expand _ _ _ G) in E2 by reflexivity. rewrite (list_arguments _ _ L) in E2. apply find_some in E2. destruct E2 as [-> Y]. split; [|exact Y].
  clear L Y. induction F as [|p l S0 F IH]; constructor; [|exact IH]. rewrite (look_agree _ _ _ G S0). now apply look_asked.
Qed.
Lemma asked_minimum v p t k c : value v (minimum_version p) = Some t -> version t k -> k <= 2 -> not_zero t -> asked v p c -> c = (p, Some t).
Proof.
  intros E V K Z A. rewrite (asked_look v p c A). symmetry. apply asked_look. eapply asked_short; eauto.
Qed.
Lemma names_lemma keep comp found v w calls names : configure_cpp keep comp found v = Some (w, calls) -> list_of (expand v (s "MODULE_FIND_PACKAGES")) names ->
  map fst calls = names /\ Forall (fun c => found c = true) calls.
Proof.
  intros H L. apply configure_inv in H. destruct H as (v1 & v3 & E1 & E2 & _ & _). pose proof (before keep comp v v1 E1) as G.
  rewrite (agree_expand _ _ _ G) in E2 by reflexivity. rewrite (list_arguments _ _ L) in E2. apply find_some in E2. destruct E2 as [-> Y]. split; [|exact Y].
  rewrite map_map. rewrite <- (map_id names) at 2. apply map_ext. intro p. unfold look_for. cbv zeta. destruct (condition _ _); reflexivity.
Qed.

Lemma standard_lemma keep comp found v w calls t n : configure_cpp keep comp found v = Some (w, calls) -> value v (s "MODULE_CPP_VERSION") = Some t -> In (t, n) standards ->
  value w (s "CMAKE_CXX_STANDARD") = Some n.
Proof.
  intros H E I. apply configure_inv in H. destruct H as (v1 & v3 & E1 & _ & E3 & ->).
  rewrite <- (agree_build keep v (s "MODULE_CPP_VERSION") (not_set (s "MODULE_CPP_VERSION") eq_refl)) in E. rewrite (cpp_in _ _ _ _ E I) in E1. unfold force in E1. destruct (_ && _); [discriminate|]. apply some_inj in E1. subst v1.
  apply instruments_some in E3. destruct E3 as (f & (_ & _ & X) & _). rewrite other_custom by discriminate. rewrite X by discriminate. rewrite other_shared by discriminate. now rewrite value_text, str_eqb_refl.
Qed.
Lemma unforced_lemma keep comp found v w calls : configure_cpp keep comp found v = Some (w, calls) -> value v (s "MODULE_CPP_VERSION") = None ->
  value w (s "CMAKE_CXX_STANDARD") = value v (s "CMAKE_CXX_STANDARD").
Proof.
  intros H E. apply configure_inv in H. destruct H as (v1 & v3 & E1 & _ & E3 & ->).
  rewrite <- (agree_build keep v (s "MODULE_CPP_VERSION") (not_set (s "MODULE_CPP_VERSION") eq_refl)) in E. rewrite (cpp_none _ _ E) in E1. apply some_inj in E1. subst v1.
  apply instruments_some in E3. destruct E3 as (f & (_ & _ & X) & _). rewrite other_custom by discriminate. rewrite X by discriminate. rewrite other_shared by discriminate. now rewrite other_build.
Qed.
Lemma added_agree v w comp l t : agree v w -> (forall x f, In (x, f) l -> ~ In x set_variables) -> added w comp l t -> added v comp l t.
Proof.
  intros G N A. assert (X : forall x, ~ In x set_variables -> enabled w x <-> enabled v x) by (intros x H; unfold enabled; rewrite (G x H); tauto).
  induction A as [|x f l t E A IH|x f g l t E C A IH|x f g l t E C U A IH]; (assert (I : forall y f, In (y, f) l -> ~ In y set_variables) by (intros y f0 J; apply (N y f0); now right)) || idtac.
  - constructor.
  - apply added_off; [rewrite <- X; [exact E|apply (N x f); now left]|auto].
  - apply added_clang; [rewrite <- X; [exact E|apply (N x (f, g)); now left]|auto|auto].
  - apply added_gcc; [rewrite <- X; [exact E|apply (N x (f, g)); now left]|auto|auto|auto].
Qed.
Lemma table_not_set x f : In (x, f) instruments_table -> ~ In x set_variables.
Proof.
  intro I. apply not_set. unfold instruments_table in I. cbn [In] in I. destruct I as [I|[I|[I|[]]]]; apply (f_equal fst) in I; cbn [fst] in I; rewrite <- I; reflexivity.
Qed.
Lemma flags_lemma keep comp found v w calls : configure_cpp keep comp found v = Some (w, calls) -> exists t, added v comp instruments_table t /\
  expand w (s "CMAKE_C_FLAGS") = expand v (s "CMAKE_C_FLAGS") ++ t /\
  expand w (s "CMAKE_CXX_FLAGS") = expand v (s "CMAKE_CXX_FLAGS") ++ t ++ (if msvc comp then s " /Zc:preprocessor" else []).
Proof.
  intro H. apply configure_inv in H. destruct H as (v1 & v3 & E1 & _ & E3 & ->). pose proof (before keep comp v v1 E1) as G.
  apply instruments_some in E3. destruct E3 as (t & (C & X & _) & A & _). exists t. split; [exact (added_agree v _ comp _ t G table_not_set A)|].
  assert (B : forall y, y <> s "CMAKE_BUILD_TYPE" -> y <> s "CMAKE_CXX_STANDARD" -> y <> s "BUILD_SHARED_LIBS" -> expand (shared_libs v1) y = expand v y).
  { intros y N1 N2 N3. unfold expand. now rewrite other_shared, (other_cpp _ _ _ _ E1), other_build. }
  split.
  - unfold expand at 1. rewrite other_custom by discriminate. fold (expand v3 (s "CMAKE_C_FLAGS")). rewrite C, B by discriminate. reflexivity.
  - unfold custom. destruct (msvc comp).
    + unfold expand at 1. rewrite value_append, str_eqb_refl, X, B by discriminate. rewrite <- app_assoc. reflexivity.
    + rewrite X, B by discriminate. now rewrite app_nil_r.
Qed.
Lemma sanitizers_lemma keep comp found v w calls : configure_cpp keep comp found v = Some (w, calls) -> ~ (enabled v (s "TSAN_BUILD") /\ enabled v (s "ASAN_BUILD")).
Proof.
  intro H. apply configure_inv in H. destruct H as (v1 & v3 & E1 & _ & E3 & ->). pose proof (before keep comp v v1 E1) as G.
  apply instruments_some in E3. destruct E3 as (t & _ & _ & N). rewrite <- (agree_enabled _ _ (s "TSAN_BUILD") G eq_refl), <- (agree_enabled _ _ (s "ASAN_BUILD") G eq_refl). exact N.
Qed.
Lemma rest_lemma keep comp found v w calls x : configure_cpp keep comp found v = Some (w, calls) -> ~ In x set_variables -> value w x = value v x.
Proof.
  intros H N. apply configure_inv in H. destruct H as (v1 & v3 & E1 & _ & E3 & ->). apply instruments_some in E3. destruct E3 as (t & F & _).
  rewrite (agree_custom comp v3 x N), (agree_flagged _ _ _ F x N). exact (before keep comp v v1 E1 x N).
Qed.
Lemma default_values keep comp found v w calls : configure_cpp keep comp found v = Some (w, calls) ->
  (forall t, value v (s "BUILD_SHARED_LIBS") = Some t -> value w (s "BUILD_SHARED_LIBS") = Some t) /\
  (value v (s "BUILD_SHARED_LIBS") = None -> value w (s "BUILD_SHARED_LIBS") = Some (s "ON")) /\
  (enabled v (s "CMAKE_BUILD_TYPE") \/ enabled v (s "CMAKE_CONFIGURATION_TYPES") -> value w (s "CMAKE_BUILD_TYPE") = value v (s "CMAKE_BUILD_TYPE")) /\
  (normal v (s "CMAKE_BUILD_TYPE") = None -> ~ enabled v (s "CMAKE_BUILD_TYPE") -> ~ enabled v (s "CMAKE_CONFIGURATION_TYPES") -> value w (s "CMAKE_BUILD_TYPE") = Some (s "Release")).
Proof.
  intro H. apply configure_inv in H. destruct H as (v1 & v3 & E1 & _ & E3 & ->). apply instruments_some in E3. destruct E3 as (f & (_ & _ & X) & _).
  assert (B : value (custom comp v3) (s "BUILD_SHARED_LIBS") = match value v (s "BUILD_SHARED_LIBS") with Some t => Some t | None => Some (s "ON") end).
  { rewrite other_custom by discriminate. rewrite X by discriminate. rewrite <- (other_build keep v) by discriminate. rewrite <- (other_cpp _ _ _ (s "BUILD_SHARED_LIBS") E1) by discriminate.
    unfold shared_libs. cbv zeta. destruct (value v1 (s "BUILD_SHARED_LIBS")) as [t|] eqn:E; [exact E|]. unfold value in E |- *. cbn [normal cached]. destruct (normal v1 (s "BUILD_SHARED_LIBS")); [discriminate|]. unfold update. now rewrite str_eqb_refl. }
  assert (R : value (custom comp v3) (s "CMAKE_BUILD_TYPE") = value (build_type keep v) (s "CMAKE_BUILD_TYPE")).
  { rewrite other_custom by discriminate. rewrite X by discriminate. rewrite other_shared by discriminate. apply (other_cpp _ _ _ _ E1). discriminate. }
  rewrite B, R. unfold build_type. cbv zeta. repeat split.
  - intros t ->. reflexivity.
  - intros ->. reflexivity.
  - rewrite <- !truthy_enabled. intros [-> | -> ]; [reflexivity|]. now rewrite Bool.andb_false_r.
  - rewrite <- !truthy_not. intros N -> ->. cbn [negb andb]. unfold value. cbn [normal cached]. unfold update. rewrite str_eqb_refl. destruct keep; [rewrite N|]; reflexivity.
Qed.
Lemma stops_lemma keep comp found v names : list_of (expand v (s "MODULE_FIND_PACKAGES")) names -> Forall (sensible v) names ->
  (forall t, value v (s "MODULE_CPP_VERSION") = Some t -> ~ In ";"%char t) -> configure_cpp keep comp found v = None <-> stops comp found v names.
Proof.
  intros L F S0. pose proof (agree_build keep v (s "MODULE_CPP_VERSION") (not_set (s "MODULE_CPP_VERSION") eq_refl)) as M. unfold configure_cpp. cbv zeta.
  assert (P : cpp_version comp (build_type keep v) = None -> stops comp found v names).
  { intro H. destruct (value v (s "MODULE_CPP_VERSION")) as [t|] eqn:E.
    - destruct (standard_dec t) as [(n & I)|N]; [|eapply stops_version; eauto]. rewrite (cpp_in _ _ _ _ M I) in H. unfold force in H. destruct (_ && _) eqn:X; [|discriminate].
      apply andb_prop in X. destruct X as [X Y]. apply checked_bool in X. apply Bool.negb_true_iff in Y. eapply stops_standard; eauto.
    - rewrite (cpp_none _ _ M) in H. discriminate. }
  destruct (cpp_version comp (build_type keep v)) as [v1|] eqn:E1; [|split; auto]. clear P. pose proof (before keep comp v v1 E1) as G.
  rewrite (agree_expand _ _ _ G) by reflexivity. rewrite (list_arguments _ _ L).
  assert (Q : find_projects found (shared_libs v1) names = None <-> exists p c, In p names /\ asked v p c /\ found c = false).
  { rewrite find_none. rewrite Forall_forall in F. split.
    - intros (p & I & X). rewrite (look_agree _ _ _ G (F p I)) in X. exists p, (look_for v p). split; [exact I|]. split; [now apply look_asked, F|exact X].
    - intros (p & c & I & A & X). exists p. split; [exact I|]. rewrite (look_agree _ _ _ G (F p I)). rewrite <- (asked_look v p c A). exact X. }
  pose proof (instruments_none comp (shared_libs v1)) as R.
  assert (R' : instruments comp (shared_libs v1) = None <->
    (exists x, In x [s "CODE_COVERAGE"; s "TSAN_BUILD"; s "ASAN_BUILD"] /\ enabled v x /\ ~ clang comp /\ gnucxx comp = false) \/ enabled v (s "TSAN_BUILD") /\ enabled v (s "ASAN_BUILD")).
  { rewrite R. rewrite (agree_enabled _ _ (s "TSAN_BUILD") G eq_refl), (agree_enabled _ _ (s "ASAN_BUILD") G eq_refl).
    split; (intros [(x & I & X & C)|Y]; [left; exists x; split; [exact I|split; [|exact C]]|now right]);
    (destruct I as [<- |[<- |[<- |[]]]]; [apply (agree_enabled _ _ (s "CODE_COVERAGE") G eq_refl)|apply (agree_enabled _ _ (s "TSAN_BUILD") G eq_refl)|apply (agree_enabled _ _ (s "ASAN_BUILD") G eq_refl)]; exact X). }
  clear R. split.
  - destruct (find_projects found (shared_libs v1) names) as [l|].
    + destruct (instruments comp (shared_libs v1)); [discriminate|]. intros _. destruct (proj1 R' eq_refl) as [(x & I & X & C & U)|[A B]]; [eapply stops_compiler; eauto|now apply stops_both].
    + intros _. destruct (proj1 Q eq_refl) as (p & c & I & A & X). eapply stops_package; eauto.
  - intro H. destruct (find_projects found (shared_libs v1) names) as [l|] eqn:FP; [|reflexivity]. destruct (instruments comp (shared_libs v1)) as [v3|] eqn:IN; [|reflexivity]. exfalso.
    destruct H as [t E N|t n E I C A|p c I A X|x I X C U|A B].
    + rewrite E in M. rewrite (cpp_not _ _ _ M (S0 t E) N) in E1. discriminate.
    + rewrite E in M. rewrite (cpp_in _ _ _ _ M I) in E1. unfold force in E1. apply checked_bool in C. rewrite C, A in E1. discriminate.
    + assert (K : Some l = None) by (apply Q; eauto). discriminate.
    + assert (K : Some v3 = None) by (apply R'; left; eauto). discriminate.
    + assert (K : Some v3 = None) by (apply R'; right; auto). discriminate.
Qed.
