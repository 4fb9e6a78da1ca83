(** Proofs of C149. *)
From Coq Require Import Lia.
From Verif Require Import Str_proofs Cmake_model CmakeOpt_model CmakeSet_spec CmakeSet_proofs CmakeCpp_spec CmakeCpp_proofs CmakeTest_model CmakeTest_spec.

(** ** globs *)
Definition literal (w : str) : Prop := ~ In "*"%char w /\ ~ In "?"%char w.
Lemma glob_literal w p u : literal w -> glob (w ++ p) u <-> exists r, u = w ++ r /\ glob p r.
Proof.
  revert u. induction w as [|c w IH]; intros u [A B]; cbn [app].
  - split; [intro G; exists u; auto|]. intros (r & -> & G). exact G.
  - assert (L : literal w) by (split; intro I; [apply A|apply B]; now right). split.
    + intro G. inversion G; subst; [exfalso; apply A; now left|exfalso; apply B; now left|]. match goal with H : glob (w ++ p) _ |- _ => apply (IH _ L) in H; destruct H as (r & -> & H) end. exists r. auto.
    + intros (r & -> & G). apply glob_char; [intros ->; apply A; now left|intros ->; apply B; now left|]. apply (IH _ L). eauto.
Qed.
Lemma glob_stars p u : glob ("*"%char :: "*"%char :: p) u <-> exists a b, u = a ++ b /\ glob p b.
Proof.
  split.
  - intro G. inversion G as [|? t w G'| |]; subst; [|congruence]. inversion G' as [|? t' w' G''| |]; subst; [|congruence]. exists (t ++ t'), w'. now rewrite app_assoc.
  - intros (a & b & -> & G). apply glob_star. apply (glob_star p [] b G).
Qed.
Lemma glob_nil u : glob [] u <-> u = [].
Proof. split; [intro G; now inversion G|]. intros ->. constructor. Qed.
Lemma glob_literal_end w u : literal w -> glob w u <-> u = w.
Proof.
  intro L. rewrite <- (app_nil_r w) at 1. rewrite (glob_literal w [] u L). split.
  - intros (r & -> & G). apply glob_nil in G. subst. apply app_nil_r.
  - intros ->. exists []. rewrite app_nil_r. split; [reflexivity|constructor].
Qed.

(** ** identifiers *)
Lemma identifier_not t c : identifier t -> existsb (Ascii.eqb c) (s "abcdefghijklmnopqrstuvwxyzABCDEFGHIJKLMNOPQRSTUVWXYZ0123456789_") = false -> ~ In c t.
Proof.
  intros [_ F] N I. rewrite Forall_forall in F. apply F in I. rewrite <- Bool.not_true_iff_false in N. apply N. apply existsb_exists. exists c. split; [exact I|apply Ascii.eqb_refl].
Qed.
Lemma identifier_literal t : identifier t -> literal t.
Proof. intro I. split; apply (identifier_not t _ I); reflexivity. Qed.
Lemma not_in_app {A} (c : A) a b : ~ In c (a ++ b) <-> ~ In c a /\ ~ In c b.
Proof. rewrite in_app_iff. tauto. Qed.
Lemma cut_unique (c : ascii) a b a' b' : ~ In c a -> ~ In c a' -> a ++ c :: b = a' ++ c :: b' -> a = a' /\ b = b'.
Proof.
  revert a'. induction a as [|x a IH]; intros [|y a'] N N' E; cbn in E; inversion E; subst.
  - auto.
  - exfalso. apply N'. now left.
  - exfalso. apply N. now left.
  - destruct (IH a') as [-> ->]; auto; intro I; [apply N|apply N']; now right.
Qed.

(** ** the filter *)
Definition pattern1 (suite case : str) : str := suite ++ s "**." ++ case.
Definition pattern2 (suite case : str) : str := s "**/" ++ suite ++ s "**." ++ case ++ s "/**".
Lemma lit c : c <> "*"%char -> c <> "?"%char -> literal [c].
Proof. intros A B. split; intros [H|[]]; congruence. Qed.
Lemma literal_app a b : literal a -> literal b -> literal (a ++ b).
Proof. intros [A B] [C D]. split; apply not_in_app; auto. Qed.
Lemma glob1 suite case full : identifier suite -> identifier case -> glob (pattern1 suite case) full <-> exists r, full = suite ++ r ++ s "." ++ case.
Proof.
  intros I J. apply identifier_literal in I, J. unfold pattern1. rewrite (glob_literal suite _ _ I).
  assert (D : literal (s "." ++ case)) by (apply literal_app; [apply lit; discriminate|exact J]). change (s "**." ++ case) with ("*"%char :: "*"%char :: s "." ++ case). split.
  - intros (r & -> & G). apply glob_stars in G. destruct G as (a & b & -> & G). apply (glob_literal_end _ _ D) in G. subst. eauto.
  - intros (r & ->). exists (r ++ s "." ++ case). split; [reflexivity|]. apply glob_stars. exists r, (s "." ++ case). split; [reflexivity|]. now apply glob_literal_end.
Qed.
Lemma glob2 suite case full : identifier suite -> identifier case -> glob (pattern2 suite case) full <-> exists a b c, full = a ++ s "/" ++ suite ++ b ++ s "." ++ case ++ s "/" ++ c.
Proof.
  intros I J. apply identifier_literal in I, J. unfold pattern2.
  assert (L1 : literal (s "/" ++ suite)) by (apply literal_app; [apply lit; discriminate|exact I]).
  assert (L2 : literal (s "." ++ case ++ s "/")) by (apply literal_app; [apply lit; discriminate|apply literal_app; [exact J|apply lit; discriminate]]).
  replace (s "**/" ++ suite ++ s "**." ++ case ++ s "/**") with ("*"%char :: "*"%char :: (s "/" ++ suite) ++ "*"%char :: "*"%char :: (s "." ++ case ++ s "/") ++ ["*"%char; "*"%char]) by (cbn; now rewrite <- !app_assoc).
  split.
  - intro G. apply glob_stars in G. destruct G as (a & r & -> & G). apply (glob_literal _ _ _ L1) in G. destruct G as (r' & -> & G). apply glob_stars in G. destruct G as (b & r2 & -> & G).
    apply (glob_literal _ _ _ L2) in G. destruct G as (c & -> & _). exists a, b, c. rewrite <- !app_assoc. reflexivity.
  - intros (a & b & c & ->). apply glob_stars. exists a, ((s "/" ++ suite) ++ b ++ (s "." ++ case ++ s "/") ++ c). split; [now rewrite <- !app_assoc|].
    apply (glob_literal _ _ _ L1). eexists. split; [reflexivity|]. apply glob_stars. exists b, ((s "." ++ case ++ s "/") ++ c). split; [reflexivity|].
    apply (glob_literal _ _ _ L2). exists c. split; [reflexivity|]. apply glob_stars. exists c, []. rewrite app_nil_r. split; [reflexivity|constructor].
Qed.
Definition clean (p : str) : Prop := ~ In ":"%char p /\ ~ In "-"%char p.
Lemma clean_app a b : clean a -> clean b -> clean (a ++ b).
Proof. intros [A B] [C D]. split; apply not_in_app; auto. Qed.
Lemma clean_identifier t : identifier t -> clean t.
Proof. intro I. split; apply (identifier_not t _ I); reflexivity. Qed.
Lemma clean_dec t : existsb (fun c => Ascii.eqb ":" c || Ascii.eqb "-" c) t = false -> clean t.
Proof.
  intro H. split; intro I; rewrite <- Bool.not_true_iff_false in H; apply H; apply existsb_exists; eexists; (split; [exact I|reflexivity]).
Qed.
Lemma clean1 suite case : identifier suite -> identifier case -> clean (pattern1 suite case).
Proof. intros I J. apply clean_identifier in I, J. unfold pattern1. repeat apply clean_app; auto; apply clean_dec; reflexivity. Qed.
Lemma clean2 suite case : identifier suite -> identifier case -> clean (pattern2 suite case).
Proof. intros I J. apply clean_identifier in I, J. unfold pattern2. repeat apply clean_app; auto; apply clean_dec; reflexivity. Qed.
Lemma patterns_two p q l : clean p -> clean q -> patterns (p ++ s ":" ++ q) l <-> l = [p; q].
Proof.
  intros [P P'] [Q Q']. split.
  - intro H. inversion H as [x A B E|x f l' A B C E]; subst.
    + exfalso. apply A. apply in_app_iff. right. now left.
    + apply (cut_unique ":"%char x f p q) in E; [|auto|auto]. destruct E as [-> ->]. f_equal. inversion C as [y U V W|y g m U V W Z]; subst; [reflexivity|]. exfalso. apply Q. apply in_app_iff. right. now left.
  - intros ->. apply patterns_more; auto. now apply patterns_one.
Qed.
Lemma append_inj (a b c : str) : a ++ b = a ++ c -> b = c.
Proof. apply app_inv_head. Qed.
Lemma runs_case suite case n args full : identifier suite -> identifier case -> (n, args) = case_entry suite case ->
  runs args full <-> (exists r, full = suite ++ r ++ s "." ++ case) \/ (exists a b c, full = a ++ s "/" ++ suite ++ b ++ s "." ++ case ++ s "/" ++ c).
Proof.
  intros I J E. apply (f_equal snd) in E. unfold case_entry in E. cbn [snd] in E. subst args.
  replace (s "--gtest_filter=" ++ suite ++ s "**." ++ case ++ s ":**/" ++ suite ++ s "**." ++ case ++ s "/**") with (s "--gtest_filter=" ++ (pattern1 suite case ++ s ":" ++ pattern2 suite case))
    by (unfold pattern1, pattern2; rewrite <- !app_assoc; reflexivity).
  rewrite <- (glob1 suite case full I J), <- (glob2 suite case full I J). split.
  - intro R. remember [s "--gtest_filter=" ++ (pattern1 suite case ++ s ":" ++ pattern2 suite case)] as args eqn:EA. destruct R as [u|f l p u P K G]; [discriminate EA|].
    apply (f_equal (hd [])) in EA. cbn [hd] in EA. apply app_inv_head in EA. subst f. apply (patterns_two _ _ _ (clean1 _ _ I J) (clean2 _ _ I J)) in P. subst l. destruct K as [<- |[<- |[]]]; auto.
  - intros [G|G]; eapply (runs_filter _ [pattern1 suite case; pattern2 suite case]); [apply patterns_two; auto using clean1, clean2| |exact G|apply patterns_two; auto using clean1, clean2| |exact G]; cbn; auto.
Qed.

(** ** lists *)
Lemma identifier_simple t : identifier t -> simple t.
Proof.
  intro I. split; [apply I|]. intros c J K. cbn in K. destruct K as [<- |[<- |[<- |[<- |[]]]]]; revert J; apply (identifier_not t _ I); reflexivity.
Qed.
Lemma case_list_list t l : case_list t l -> list_of t l /\ l <> [] /\ Forall identifier l.
Proof.
  induction 1 as [c I|c t l I C (L & N & F)].
  - split; [apply list_one; now apply identifier_simple|]. split; [discriminate|auto].
  - destruct l as [|a l]; [congruence|]. split; [apply list_more; [now apply identifier_simple|exact L]|]. split; [discriminate|auto].
Qed.
Lemma register_cases names suite t cases : case_list t cases -> ~ false_text t -> register names suite t = add_tests names (map (case_entry suite) cases).
Proof.
  intros C F. destruct (case_list_list t cases C) as (L & _ & _). unfold register. rewrite (not_off t F), (list_arguments t cases L). reflexivity.
Qed.
Lemma add_tests_some names l r : add_tests names l = Some r <-> r = l /\ NoDup (map fst l) /\ (forall e, In e l -> ~ In (fst e) names).
Proof.
  revert names r. induction l as [|e l IH]; intros names r; cbn [add_tests map].
  - split; [intro H; apply some_inj in H; subst; split; [reflexivity|split; [constructor|intros e []]]|]. intros [-> _]. reflexivity.
  - destruct (existsb (str_eqb (fst e)) names) eqn:X.
    + split; [discriminate|]. intros (-> & _ & N). exfalso. apply existsb_exists in X. destruct X as (x & I & E). apply str_eqb_eq in E. apply (N e); [now left|]. now rewrite E.
    + assert (X' : ~ In (fst e) names) by (intro I; rewrite <- Bool.not_true_iff_false in X; apply X; apply existsb_exists; exists (fst e); split; [exact I|apply str_eqb_refl]).
      destruct (add_tests (fst e :: names) l) as [r'|] eqn:A; cbn [option_map].
      * apply IH in A. destruct A as (-> & D & N). split.
        -- intro H. apply some_inj in H. subst. split; [reflexivity|]. split; [constructor; [|exact D]|].
           ++ intro I. apply in_map_iff in I. destruct I as (e' & E & I). apply (N e' I). left. now symmetry.
           ++ intros e' [<- |I]; [exact X'|]. intro K. apply (N e' I). now right.
        -- intros (-> & _). reflexivity.
      * split; [discriminate|]. intros (-> & D & N). exfalso. assert (K : None = Some l); [|discriminate]. rewrite <- A. apply IH. split; [reflexivity|]. inversion D as [|? ? D1 D2]; subst. split; [exact D2|].
        intros e' I [E|K]; [apply D1; apply in_map_iff; exists e'; auto|]. apply (N e'); [now right|exact K].
Qed.
Definition name (suite case : str) : str := suite ++ s "." ++ case.
Lemma name_inj suite a b : name suite a = name suite b -> a = b.
Proof. unfold name. intro E. now apply app_inv_head, app_inv_head in E. Qed.
Lemma entries_lemma names suite t cases : case_list t cases -> ~ false_text t ->
  (NoDup cases -> (forall c, In c cases -> ~ In (suite ++ s "." ++ c) names) -> exists l, register names suite t = Some l) /\
  forall l, register names suite t = Some l -> NoDup cases /\ map fst l = map (fun c => suite ++ s "." ++ c) cases.
Proof.
  intros C F. rewrite (register_cases names suite t cases C F). split.
  - intros D N. exists (map (case_entry suite) cases). apply add_tests_some. split; [reflexivity|]. split.
    + rewrite map_map. change (NoDup (map (name suite) cases)). clear C F N. induction D as [|c l I D IH]; constructor; [|exact IH]. intro J. apply in_map_iff in J. destruct J as (c' & E & J). apply name_inj in E. congruence.
    + intros e I. apply in_map_iff in I. destruct I as (c & <- & I). exact (N c I).
  - intros l H. apply add_tests_some in H. destruct H as (-> & D & _). rewrite map_map in *. split; [|reflexivity].
    change (NoDup (map (name suite) cases)) in D. eapply NoDup_map_inv; exact D.
Qed.
Lemma entry_in names suite t cases l n args : case_list t cases -> ~ false_text t -> register names suite t = Some l -> In (n, args) l <-> exists c, In c cases /\ (n, args) = case_entry suite c.
Proof.
  intros C F H. rewrite (register_cases names suite t cases C F) in H. apply add_tests_some in H. destruct H as (-> & _). rewrite in_map_iff. split; intros (c & A & B); exists c; auto.
Qed.
Lemma runs_lemma names suite t cases l c full : case_list t cases -> ~ false_text t -> identifier suite -> register names suite t = Some l -> In c cases -> full_name suite c full ->
  exists args, In (suite ++ s "." ++ c, args) l /\ runs args full.
Proof.
  intros C F I H J N. destruct (case_list_list t cases C) as (_ & _ & G). rewrite Forall_forall in G. exists (snd (case_entry suite c)). split.
  - apply (entry_in names suite t cases l _ _ C F H). exists c. split; [exact J|reflexivity].
  - apply (runs_case suite c (suite ++ s "." ++ c) _ full I (G c J) eq_refl). destruct N as [|i _|p i _ _].
    + left. exists []. reflexivity.
    + left. exists (s "/" ++ i). now rewrite <- !app_assoc.
    + right. exists p, [], i. reflexivity.
Qed.
(** where the point is *)
Lemma full_dot suite c full : identifier suite -> full_name suite c full -> exists a, ~ In "."%char a /\ (full = a ++ "."%char :: c \/ exists i, identifier i /\ full = a ++ "."%char :: c ++ s "/" ++ i).
Proof.
  intros I N. assert (D : forall t, identifier t -> ~ In "."%char t) by (intros t J; apply (identifier_not t _ J); reflexivity).
  destruct N as [|i J|p i J K].
  - exists suite. split; [now apply D|]. left. reflexivity.
  - exists (suite ++ s "/" ++ i). split; [apply not_in_app; split; [now apply D|]; apply not_in_app; split; [intros [H|[]]; discriminate|now apply D]|]. left. now rewrite <- !app_assoc.
  - exists (p ++ s "/" ++ suite). split; [apply not_in_app; split; [now apply D|]; apply not_in_app; split; [intros [H|[]]; discriminate|now apply D]|]. right. exists i. rewrite <- !app_assoc. auto.
Qed.
Lemma dot_first (a b x y : str) : ~ In "."%char a -> ~ In "."%char y -> a ++ "."%char :: y = x ++ "."%char :: b -> x = a /\ b = y.
Proof.
  intros A Y E. assert (X : ~ In "."%char x).
  { intro X. apply in_split in X. destruct X as (x1 & x2 & ->). rewrite <- app_assoc in E. cbn [app] in E.
    assert (K : exists z1 z2, x1 ++ "."%char :: x2 ++ "."%char :: b = z1 ++ "."%char :: z2 /\ ~ In "."%char z1 /\ In "."%char z2).
    { clear E. induction x1 as [|c x1 IH]; [exists [], (x2 ++ "."%char :: b); split; [reflexivity|split; [intros []|apply in_app_iff; right; now left]]|].
      destruct (ascii_dec c "."); [subst; exists [], (x1 ++ "."%char :: x2 ++ "."%char :: b); split; [reflexivity|split; [intros []|apply in_app_iff; right; now left]]|].
      destruct IH as (z1 & z2 & E & N & J). exists (c :: z1), z2. cbn [app]. rewrite E. split; [reflexivity|]. split; [|exact J]. intros [H|H]; [congruence|tauto]. }
    destruct K as (z1 & z2 & K & N & J). rewrite K in E. apply cut_unique in E; auto. destruct E as [_ ->]. tauto. }
  apply cut_unique in E; auto. destruct E as [-> ->]. auto.
Qed.
Lemma once_lemma names suite t cases l c full n args : case_list t cases -> ~ false_text t -> identifier suite -> register names suite t = Some l -> In c cases -> full_name suite c full ->
  In (n, args) l -> runs args full -> n = suite ++ s "." ++ c.
Proof.
  intros C F I H J N K R. destruct (case_list_list t cases C) as (_ & _ & G). rewrite Forall_forall in G.
  apply (entry_in names suite t cases l _ _ C F H) in K. destruct K as (d & K & E). rewrite (runs_case suite d n args full I (G d K) E) in R.
  apply (f_equal fst) in E. cbn [fst case_entry] in E. rewrite E. f_equal. f_equal.
  assert (D : forall t, identifier t -> ~ In "."%char t) by (intros x X; apply (identifier_not x _ X); reflexivity).
  assert (S0 : forall t, identifier t -> ~ In "/"%char t) by (intros x X; apply (identifier_not x _ X); reflexivity).
  pose proof (G c J) as Ic. pose proof (G d K) as Id.
  destruct (full_dot suite c full I N) as (a & A & [-> |(i & Ii & ->)]).
  - destruct R as [(r & R)|(u & v & w & R)].
    + change (s "." ++ d) with ("."%char :: d) in R. rewrite (app_assoc suite r) in R. apply dot_first in R; auto. now destruct R as [_ ->].
    + change (s "." ++ d ++ s "/" ++ w) with ("."%char :: d ++ "/"%char :: w) in R. rewrite (app_assoc suite v), (app_assoc (s "/") (suite ++ v)), (app_assoc u) in R. apply dot_first in R; auto. destruct R as [_ R].
      exfalso. apply (S0 c Ic). rewrite <- R. apply in_app_iff. right. now left.
  - assert (Y : ~ In "."%char (c ++ s "/" ++ i)) by (apply not_in_app; split; [now apply D|]; apply not_in_app; split; [intros [X|[]]; discriminate|now apply D]).
    destruct R as [(r & R)|(u & v & w & R)].
    + change (s "." ++ d) with ("."%char :: d) in R. rewrite (app_assoc suite r) in R. apply dot_first in R; auto. destruct R as [_ R].
      exfalso. apply (S0 d Id). rewrite R. apply in_app_iff. right. now left.
    + change (s "." ++ d ++ s "/" ++ w) with ("."%char :: d ++ "/"%char :: w) in R. rewrite (app_assoc suite v), (app_assoc (s "/") (suite ++ v)), (app_assoc u) in R. apply dot_first in R; auto. destruct R as [_ R].
      change (c ++ s "/" ++ i) with (c ++ "/"%char :: i) in R. apply cut_unique in R; auto. now destruct R as [-> _].
Qed.
Lemma general_lemma names suite : ~ In suite names -> exists l, register names suite [] = Some l /\ l = [(suite, [])] /\ forall full, runs (snd (hd ([], []) l)) full.
Proof.
  intro N. exists [(suite, [])]. split; [|split; [reflexivity|intro full; apply runs_all]]. unfold register. cbn [is_off]. apply add_tests_some. split; [reflexivity|]. split; [constructor; [intros []|constructor]|].
  intros e [<- |[]]. exact N.
Qed.
