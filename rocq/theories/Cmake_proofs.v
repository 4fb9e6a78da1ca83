From Verif Require Import Cmake_model Cmake_spec Str_proofs.

Lemma prefixb_iff p : forall t, prefixb p t = true <-> exists r, t = p ++ r.
Proof.
  induction p as [|x p IH]; intros t; cbn; [split; eauto|]. destruct t as [|y t]; [split; [discriminate|intros [r H]; discriminate]|].
  destruct (Ascii.eqb_spec x y) as [->|N]; cbn.
  - rewrite IH. split; intros [r H]; exists r; [rewrite H; reflexivity|injection H as ->; reflexivity].
  - split; [discriminate|]. intros [r H]. congruence.
Qed.
Lemma prefixb_no p t : prefixb p t = false <-> ~ exists r, t = p ++ r.
Proof. rewrite <- prefixb_iff. destruct (prefixb p t); split; congruence. Qed.

(** the first place *)
Lemma sfind_first p : forall pre post, (forall pre' post', pre ++ p ++ post = pre' ++ p ++ post' -> length pre <= length pre') -> sfind p (pre ++ p ++ post) = Some (length pre).
Proof.
  induction pre as [|c pre IH]; intros post H.
  - cbn [app length]. assert (E : prefixb p (p ++ post) = true) by (apply prefixb_iff; eauto). destruct (p ++ post); cbn [sfind]; rewrite E; reflexivity.
  - cbn [app sfind length]. replace (prefixb p (c :: pre ++ p ++ post)) with false.
    + rewrite IH; [reflexivity|]. intros pre' post' E. specialize (H (c :: pre') post'). cbn in H. rewrite <- E in H. specialize (H eq_refl). lia.
    + symmetry. apply prefixb_no. intros [r E]. specialize (H [] r). cbn in H. cbn in E. specialize (H E). lia.
Qed.
Lemma leading_cons c t : leading_digits (c :: t) = if (48 <=? nat_of_ascii c) && (nat_of_ascii c <=? 57) then c :: leading_digits t else [].
Proof. reflexivity. Qed.
Lemma leading_all x post : Forall digit x -> (forall c r, post = c :: r -> ~ digit c) -> leading_digits (x ++ post) = x.
Proof.
  intros D N. induction D as [|c x D1 D IH]; cbn [app].
  - destruct post as [|c r]; [reflexivity|]. rewrite leading_cons. specialize (N c r eq_refl). unfold digit in N.
    destruct ((48 <=? nat_of_ascii c) && (nat_of_ascii c <=? 57)) eqn:E; [|reflexivity]. apply andb_true_iff in E as [E1 E2].
    apply Nat.leb_le in E1, E2. exfalso. apply N. split; assumption.
  - unfold digit in D1. rewrite leading_cons. replace ((48 <=? nat_of_ascii c) && (nat_of_ascii c <=? 57)) with true; [rewrite IH; reflexivity|].
    symmetry. apply andb_true_iff. split; apply Nat.leb_le; apply D1.
Qed.
Lemma skipn_length {A} (a b : list A) : skipn (length a) (a ++ b) = b.
Proof. induction a; cbn; auto. Qed.
Lemma says_match t key x : says t key x -> match_1 key t = x.
Proof.
  intros (pre & post & -> & U & D & N). unfold match_1. rewrite sfind_first.
  - rewrite <- app_length, app_assoc, skipn_length. apply leading_all; assumption.
  - intros pre' post' E. rewrite <- (U pre' post' E). apply le_n.
Qed.

(** lists *)
Lemma split_no_semicolon t : forall n cur, ~ In ";"%char t -> split_list t n cur = [cur ++ t].
Proof.
  induction t as [|c t IH]; intros n cur N; cbn; [rewrite app_nil_r; reflexivity|]. cbn in N.
  destruct (Ascii.eqb_spec c ";"); [tauto|].
  assert (E : forall m, split_list t m (cur ++ [c]) = [cur ++ c :: t]) by (intro m; rewrite IH, <- app_assoc; [reflexivity|tauto]).
  destruct (Ascii.eqb c "\"); [|destruct (Ascii.eqb c "["), (Ascii.eqb c "]"); apply E].
  destruct t as [|d t]; [reflexivity|]. cbn in N. destruct (Ascii.eqb_spec d ";"); [tauto|]. apply E.
Qed.
Lemma existsb_in c t : existsb (Ascii.eqb c) t = false -> ~ In c t.
Proof. intros E H. rewrite <- not_true_iff_false in E. apply E. apply existsb_exists. exists c. split; [exact H|apply Ascii.eqb_refl]. Qed.
Lemma elements_split t : elements t = split_list t 0 [].
Proof. unfold elements. destruct (existsb (Ascii.eqb ";") t) eqn:E; [reflexivity|]. apply existsb_in in E. rewrite split_no_semicolon by exact E. reflexivity. Qed.

Lemma arguments_one t : ~ In ";"%char t -> t <> [] -> arguments t = [t].
Proof. intros N E. unfold arguments. rewrite elements_split, split_no_semicolon by exact N. destruct t; [congruence|reflexivity]. Qed.

Lemma version_lemma t before x y z : ~ In ";"%char t -> says t (s "VERSION_MAJOR ") x -> says t (s "VERSION_MINOR ") y -> says t (s "VERSION_PATCH ") z ->
  exists v, read_version (Some t) before = Some v /\ v_major v = x /\ v_minor v = y /\ v_patch v = z /\
    (fst before = None -> v_version v = dotted x y z).
Proof.
  intros N X Y Z. unfold read_version. rewrite arguments_one; [|exact N|].
  2:{ intros ->. destruct X as (pre & post & E & _). destruct pre; discriminate. }
  cbn zeta. change (concat [t]) with (t ++ []). rewrite app_nil_r. rewrite (says_match _ _ _ X), (says_match _ _ _ Y), (says_match _ _ _ Z). eexists. split; [reflexivity|]. cbn [v_major v_minor v_patch v_version].
  repeat split. intros ->. reflexivity.
Qed.

(** the documented file *)
Lemma skip_char k c t : nat_of_ascii c <> nat_of_ascii "V" -> sfind ("V"%char :: k) (c :: t) = option_map S (sfind ("V"%char :: k) t).
Proof. intro N. cbn [sfind prefixb]. destruct (Ascii.eqb_spec "V" c) as [<-|D]; [congruence|]. reflexivity. Qed.
Lemma skip_text k x t : Forall (fun c => nat_of_ascii c <> nat_of_ascii "V") x -> sfind ("V"%char :: k) (x ++ t) = option_map (Nat.add (length x)) (sfind ("V"%char :: k) t).
Proof.
  induction 1 as [|c x D _ IH]; cbn [app length]; [destruct (sfind _ t); reflexivity|]. rewrite skip_char by exact D. rewrite IH. destruct (sfind _ t); reflexivity.
Qed.
Lemma digits_no_v x : Forall digit x -> Forall (fun c => nat_of_ascii c <> nat_of_ascii "V") x.
Proof. apply Forall_impl. unfold digit. intros c H. change (nat_of_ascii "V") with 86. lia. Qed.
Lemma digits_no_semicolon x : Forall digit x -> ~ In ";"%char x.
Proof. intros D H. rewrite Forall_forall in D. specialize (D _ H). unfold digit in D. change (nat_of_ascii ";") with 59 in D. lia. Qed.
Lemma file_no_semicolon x y z : Forall digit x -> Forall digit y -> Forall digit z -> ~ In ";"%char (version_file x y z).
Proof.
  intros X Y Z H. unfold version_file in H. repeat (apply in_app_or in H as [H|H]); try (exact (digits_no_semicolon _ X H)); try (exact (digits_no_semicolon _ Y H)); try (exact (digits_no_semicolon _ Z H));
    cbn in H; intuition discriminate.
Qed.
Lemma match_here key x t : Forall digit x -> match_1 key (key ++ x ++ ascii_of_nat 10 :: t) = x.
Proof.
  intros D. unfold match_1. change (key ++ x ++ ascii_of_nat 10 :: t) with ([] ++ key ++ x ++ ascii_of_nat 10 :: t). rewrite (sfind_first key [] (x ++ ascii_of_nat 10 :: t)).
  - cbn [length Nat.add app]. rewrite skipn_length. apply leading_all; [exact D|]. intros c r [= <- _]. unfold digit. cbn. lia.
  - cbn. intros. lia.
Qed.
Lemma newline_no_v : nat_of_ascii (ascii_of_nat 10) <> nat_of_ascii "V".
Proof. cbn. lia. Qed.
Lemma match_skip k1 k2 x t : k2 <> [] -> (forall r, prefixb ("V"%char :: k2) ("V"%char :: k1 ++ r) = false) -> Forall (fun c => nat_of_ascii c <> nat_of_ascii "V") k1 -> Forall digit x ->
  match_1 ("V"%char :: k2) (("V"%char :: k1) ++ x ++ ascii_of_nat 10 :: t) = match_1 ("V"%char :: k2) t.
Proof.
  intros N P K D. unfold match_1. set (pre := ("V"%char :: k1) ++ x ++ [ascii_of_nat 10]).
  assert (E : ("V"%char :: k1) ++ x ++ ascii_of_nat 10 :: t = pre ++ t) by (unfold pre; rewrite <- !app_assoc; reflexivity).
  assert (F : sfind ("V"%char :: k2) (pre ++ t) = option_map (Nat.add (length pre)) (sfind ("V"%char :: k2) t)).
  { unfold pre. rewrite <- !app_assoc. cbn [app sfind]. rewrite P. cbn [app length]. rewrite !app_length.
    rewrite (skip_text k2 k1) by exact K. rewrite (skip_text k2 x) by (apply digits_no_v; exact D). rewrite skip_char by exact newline_no_v.
    cbn [length]. destruct (sfind ("V"%char :: k2) t); cbn [option_map]; [|reflexivity]. f_equal. cbn [length]. lia. }
  rewrite E, F. destruct (sfind ("V"%char :: k2) t) as [i|]; cbn [option_map]; [|reflexivity]. f_equal.
  rewrite <- Nat.add_assoc. generalize (i + length ("V"%char :: k2)). intro j. clear. induction pre; cbn; auto.
Qed.

Lemma file_lemma x y z : Forall digit x -> Forall digit y -> Forall digit z ->
  read_version (Some (version_file x y z)) (None, None) = Some {| v_major := x; v_minor := y; v_patch := z; v_version := dotted x y z; v_string := s "v" ++ dotted x y z |}.
Proof.
  intros X Y Z. unfold read_version. rewrite arguments_one; [|apply file_no_semicolon; assumption|discriminate].
  cbn zeta. change (concat [version_file x y z]) with (version_file x y z ++ []). rewrite app_nil_r.
  assert (A : match_1 (s "VERSION_MAJOR ") (version_file x y z) = x) by (apply match_here; exact X).
  assert (B : match_1 (s "VERSION_MINOR ") (version_file x y z) = y).
  { unfold version_file. change (s "VERSION_MAJOR ") with ("V"%char :: s "ERSION_MAJOR "). change (s "VERSION_MINOR ") with ("V"%char :: s "ERSION_MINOR ").
    change ([ascii_of_nat 10] ++ ?t) with (ascii_of_nat 10 :: t). rewrite match_skip; [|discriminate|reflexivity| |exact X].
    - change ("V"%char :: s "ERSION_MINOR ") with (s "VERSION_MINOR "). apply match_here. exact Y.
    - repeat (constructor; [cbn; lia|]). constructor. }
  assert (C : match_1 (s "VERSION_PATCH ") (version_file x y z) = z).
  { unfold version_file. change (s "VERSION_MAJOR ") with ("V"%char :: s "ERSION_MAJOR "). change (s "VERSION_MINOR ") with ("V"%char :: s "ERSION_MINOR "). change (s "VERSION_PATCH ") with ("V"%char :: s "ERSION_PATCH ").
    change (match_1 ("V"%char :: s "ERSION_PATCH ") (("V"%char :: s "ERSION_MAJOR ") ++ x ++ ascii_of_nat 10 :: ("V"%char :: s "ERSION_MINOR ") ++ y ++ ascii_of_nat 10 :: s "VERSION_PATCH " ++ z ++ [ascii_of_nat 10]) = z). rewrite match_skip; [|discriminate|reflexivity| |exact X].
    - rewrite match_skip; [|discriminate|reflexivity| |exact Y].
      + apply (match_here (s "VERSION_PATCH ") z []). exact Z.
      + repeat (constructor; [cbn; lia|]). constructor.
    - repeat (constructor; [cbn; lia|]). constructor. }
  rewrite A, B, C. reflexivity.
Qed.

(** ** labels *)
Lemma split_tame l : forall cur rest, tame l -> split_list (escape l ++ rest) 0 cur = split_list rest 0 (cur ++ l).
Proof.
  induction l as [|c l IH]; intros cur rest (A & B & C); [cbn; rewrite app_nil_r; reflexivity|]. cbn in A, B, C.
  assert (T : tame l) by (unfold tame; tauto). cbn [escape]. destruct (Ascii.eqb_spec c ";") as [->|N]; cbn [app].
  - cbn. rewrite IH by exact T. rewrite <- app_assoc. reflexivity.
  - cbn [split_list]. destruct (Ascii.eqb_spec c ";"); [tauto|]. destruct (Ascii.eqb_spec c "\"); [subst; tauto|].
    destruct (Ascii.eqb_spec c "["); [subst; tauto|]. destruct (Ascii.eqb_spec c "]"); [subst; tauto|].
    rewrite IH by exact T. rewrite <- app_assoc. reflexivity.
Qed.
Lemma split_lines lines : forall l cur, tame l -> Forall tame lines ->
  split_list (escape l ++ concat (map (fun x => s ";" ++ escape x) lines)) 0 cur = (cur ++ l) :: lines.
Proof.
  induction lines as [|m lines IH]; intros l cur T F; rewrite split_tame by exact T; [reflexivity|].
  inversion F; subst. cbn [map concat]. rewrite <- app_assoc.
  change ((cur ++ l) :: split_list (escape m ++ concat (map (fun x => s ";" ++ escape x) lines)) 0 [] = (cur ++ l) :: m :: lines). rewrite (IH m []); auto.
Qed.
Lemma lines_elements lines : Forall tame lines -> lines <> [] -> elements (file_strings lines) = lines.
Proof. intros F N. rewrite elements_split. destruct lines as [|l lines]; [congruence|]. inversion F; subst. cbn [file_strings]. rewrite split_lines by assumption. reflexivity. Qed.
Lemma escape_plain l : ~ In ";"%char l -> escape l = l.
Proof. induction l as [|c l IH]; intro N; [reflexivity|]. cbn in *. destruct (Ascii.eqb_spec c ";"); [tauto|]. rewrite IH; tauto. Qed.
Lemma join_file ls : Forall plain ls -> join ls = file_strings ls.
Proof.
  destruct ls as [|l ls]; [reflexivity|]. revert l. induction ls as [|m ls IH]; intros l F; inversion F as [|? ? (_ & _ & N) G]; subst.
  - cbn. rewrite app_nil_r, escape_plain by exact N. reflexivity.
  - change (l ++ s ";" ++ join (m :: ls) = escape l ++ (s ";" ++ escape m) ++ concat (map (fun x => s ";" ++ escape x) ls)).
    rewrite (IH m G), escape_plain by exact N. rewrite <- app_assoc. reflexivity.
Qed.
Lemma plain_tame ls : Forall plain ls -> Forall tame ls.
Proof. apply Forall_impl. intros a (_ & T & _). exact T. Qed.
Lemma join_nil ls : Forall plain ls -> join ls = [] -> ls = [].
Proof. intros F E. destruct ls as [|l ls]; [reflexivity|]. inversion F as [|? ? (N & _)]; subst. destruct l; [congruence|]. destruct ls; discriminate. Qed.
Lemma join_elements ls : Forall plain ls -> ls <> [] -> elements (join ls) = ls.
Proof. intros F N. rewrite join_file by exact F. apply lines_elements; [apply plain_tame; exact F|exact N]. Qed.
Lemma join_arguments ls : Forall plain ls -> arguments (join ls) = ls.
Proof.
  intro F. unfold arguments. destruct ls as [|l ls]; [reflexivity|]. rewrite join_elements by (auto; discriminate).
  induction F as [|x r (N & _) F IH]; [reflexivity|]. cbn. destruct x; [congruence|]. cbn. rewrite IH. reflexivity.
Qed.
Lemma join_length ls : Forall plain ls -> list_length (join ls) = length ls.
Proof.
  intro F. unfold list_length. destruct (join ls) eqn:E; [rewrite (join_nil ls F E); reflexivity|]. rewrite <- E. rewrite join_elements; [reflexivity|exact F|].
  intros ->. discriminate.
Qed.
Lemma join_snoc ls : forall l, ls <> [] -> join (ls ++ [l]) = join ls ++ s ";" ++ l.
Proof.
  induction ls as [|x ls IH]; intros l N; [congruence|]. destruct ls as [|y ls]; [reflexivity|].
  change (join ((x :: y :: ls) ++ [l])) with (x ++ s ";" ++ join ((y :: ls) ++ [l])). rewrite IH by discriminate. cbn [join]. rewrite <- !app_assoc. reflexivity.
Qed.
Lemma append_join ls l : Forall plain ls -> list_append (join ls) l = join (ls ++ [l]).
Proof.
  intro F. unfold list_append. destruct (join ls) eqn:E; [rewrite (join_nil ls F E); reflexivity|]. rewrite join_snoc; [rewrite E; reflexivity|]. intros ->. discriminate.
Qed.

Record holds (d : scope) (done : list (list str * str)) : Prop := {
  h_int : internal d = join (map snd done);
  h_lab : test_labels d = join (map snd done);
  h_test : forall k, k < length done -> label_test d k = option_map (fun x => file_strings (fst x)) (nth_error done k) }.
Lemma files_hold files : forall d done, holds d done -> Forall (fun x => plain (snd x)) (done ++ files) -> holds (set_label_files (as_calls files) d) (done ++ files).
Proof.
  induction files as [|[lines label] files IH]; intros d done H F; [rewrite app_nil_r; exact H|].
  assert (P : Forall plain (map snd done)) by (apply Forall_map; apply Forall_app in F; apply F).
  cbn. change ((lines, label) :: files) with ([(lines, label)] ++ files). rewrite app_assoc. apply IH.
  2:{ rewrite <- app_assoc. exact F. }
  destruct H as [Hi Hl Ht]. split; cbn [internal test_labels label_test].
  - rewrite Hi, map_app, append_join by exact P. reflexivity.
  - rewrite Hi, map_app, append_join by exact P. reflexivity.
  - intros k L. rewrite Hi, join_length, map_length by exact P. rewrite app_length in L. cbn in L. destruct (Nat.eqb_spec k (length done)) as [->|N].
    + rewrite nth_error_app2, Nat.sub_diag by apply le_n. reflexivity.
    + rewrite nth_error_app1 by lia. apply Ht. lia.
Qed.
Lemma in_lines x lines : Forall tame lines -> x <> [] -> existsb (str_eqb x) (elements (file_strings lines)) = true <-> In x lines.
Proof.
  intros F N. destruct lines as [|l lines].
  - cbn. split; [|tauto]. destruct x; [congruence|discriminate].
  - rewrite lines_elements by (auto; discriminate). rewrite existsb_exists. split.
    + intros (y & H & E). apply str_eqb_eq in E. subst. exact H.
    + intro H. exists x. split; [exact H|apply str_eqb_refl].
Qed.

Lemma fold_labels vars d test files out : Forall (fun x => plain (snd x)) files -> Forall (fun x => Forall tame (fst x)) files -> test <> [] -> vars test = None ->
  chosen test files out -> forall index cur, (forall k, label_test d (index + k) = option_map (fun x => file_strings (fst x)) (nth_error files k) \/ length files <= k) -> Forall plain cur ->
  set_labels_from vars d test index (map snd files) (join cur) = join (cur ++ out).
Proof.
  intros P T N V C. induction C as [|lines label r o I C IH|lines label r o I C IH]; intros index cur L Q.
  - cbn. rewrite app_nil_r. reflexivity.
  - inversion P as [|? ? P1 P2]; inversion T as [|? ? T1 T2]; subst. cbn in P1, T1. cbn [map snd set_labels_from]. unfold check_and_add. rewrite V.
    destruct (L 0) as [L0|L0]; [|cbn in L0; lia]. rewrite Nat.add_0_r in L0. rewrite L0. cbn [nth_error option_map fst].
    rewrite (proj2 (in_lines test lines T1 N) I). change (arguments label) with (arguments (join [label])).
    rewrite join_arguments by (repeat constructor; apply P1). cbn [fold_left]. rewrite append_join by exact Q. rewrite IH.
    + rewrite <- app_assoc. reflexivity.
    + exact P2.
    + exact T2.
    + intro k. destruct (L (S k)) as [H|H]; [left|right; cbn in H; lia]. rewrite <- Nat.add_assoc. exact H.
    + apply Forall_app. split; [exact Q|]. repeat constructor; apply P1.
  - inversion P as [|? ? P1 P2]; inversion T as [|? ? T1 T2]; subst. cbn in P1, T1. cbn [map snd set_labels_from]. unfold check_and_add. rewrite V.
    destruct (L 0) as [L0|L0]; [|cbn in L0; lia]. rewrite Nat.add_0_r in L0. rewrite L0. cbn [nth_error option_map fst].
    destruct (existsb (str_eqb test) (elements (file_strings lines))) eqn:E; [apply (in_lines test lines T1 N) in E; tauto|]. apply IH; auto.
    intro k. destruct (L (S k)) as [H|H]; [left|right; cbn in H; lia]. rewrite <- Nat.add_assoc. exact H.
Qed.
Lemma labels_lemma vars test files out cur : Forall (fun x => plain (snd x)) files -> Forall (fun x => Forall tame (fst x)) files -> test <> [] -> vars test = None ->
  chosen test files out -> Forall plain cur ->
  set_test_labels vars (subdirectory (as_calls files) no_labels) test (join cur) = join (cur ++ out).
Proof.
  intros P T N V C Q. assert (H : holds (set_label_files (as_calls files) no_labels) files).
  { apply (files_hold files no_labels []); [|exact P]. split; cbn; auto. intros k L. lia. }
  unfold set_test_labels, subdirectory. cbn [test_labels]. rewrite (h_lab _ _ H), join_arguments by (apply Forall_map; exact P).
  apply fold_labels with (files := files); auto. intro k. cbn [label_test Nat.add]. destruct (Nat.lt_ge_cases k (length files)); [left; apply (h_test _ _ H); lia|right; lia].
Qed.
