From Verif Require Import Str Str_spec Str_proofs Outcome StrUtils_model StrUtils_spec StrUtils_proofs Ros2_model Ros2_spec.

(** ** Occurrences *)

Lemma app_split_lt : forall (A : Type) (a b c d : list A), a ++ b = c ++ d -> length c < length a ->
  exists x e, a = c ++ x :: e /\ d = x :: e ++ b.
Proof.
  intros A a b c. revert a b. induction c as [|y c IH]; intros [|x a] b d E L; cbn in *; try lia.
  - exists x, a. split; [reflexivity|congruence].
  - injection E as -> E. destruct (IH a b d E ltac:(lia)) as (x' & e & -> & ->). exists x', e. split; reflexivity.
Qed.

Lemma leftmost_fresh : forall c p w v, ~ In c w -> leftmost (w ++ (c :: p) ++ v) (c :: p) w v.
Proof.
  intros c p w v H. split; [reflexivity|]. intros u' v' E.
  destruct (le_lt_dec (length w) (length u')) as [L|L]; [exact L|exfalso].
  destruct (app_split_lt _ _ _ _ _ E L) as (x & e & Ew & Ed).
  cbn in Ed. injection Ed as <- _. apply H. rewrite Ew. apply in_or_app. right. left. reflexivity.
Qed.

Lemma leftmost_sfind : forall t p u v, leftmost t p u v -> sfind p t = Some (length u).
Proof. intros t p u v H. apply sfind_spec. exists u, v. split; [exact H|reflexivity]. Qed.

Lemma srfind_end : forall p u, srfind p (u ++ p) = Some (length u).
Proof.
  intros p u. destruct (srfind p (u ++ p)) as [i|] eqn:E.
  - destruct (srfind_some _ _ _ E) as (a & b & Et & La & M). f_equal.
    specialize (M u []). rewrite app_nil_r in M. specialize (M eq_refl).
    apply (f_equal (@length ascii)) in Et. rewrite !app_length in Et. lia.
  - exfalso. apply srfind_none in E. apply E. exists u, []. rewrite app_nil_r. reflexivity.
Qed.

(** a last occurrence that ends the string *)
Lemma srfind_at_end : forall p t i, srfind p t = Some i -> length t - i - length p = 0 ->
  t = firstn i t ++ p.
Proof.
  intros p t i H L. destruct (srfind_some _ _ _ H) as (u & v & -> & <- & _).
  rewrite !app_length in L. assert (v = []) by (destruct v; [reflexivity|cbn in L; lia]). subst v.
  rewrite app_nil_r. rewrite firstn_len_app. reflexivity.
Qed.

Lemma substr_0_app : forall a b, substr (a ++ b) 0 (length a) = a.
Proof. intros. unfold substr. cbn [skipn]. apply firstn_len_app. Qed.

Lemma substr_mid : forall a b c, substr (a ++ b ++ c) (length a) (length b) = b.
Proof. intros. unfold substr. rewrite skipn_len_app. apply firstn_len_app. Qed.

(** ** The two replacements *)

Lemma join_cons : forall sep x y l, join sep (x :: y :: l) = x ++ sep ++ join sep (y :: l).
Proof. reflexivity. Qed.

Lemma join_fresh : forall c sep l, ~ In c sep -> fresh c l -> ~ In c (join sep l).
Proof.
  intros c sep l Hs. induction l as [|x [|y l] IH]; intros H C.
  - exact C.
  - apply Forall_cons_iff in H as [Hx _]. exact (Hx C).
  - rewrite join_cons in C. apply Forall_cons_iff in H as [Hx Hl].
    apply in_app_or in C as [C|C]; [exact (Hx C)|]. apply in_app_or in C as [C|C]; [exact (Hs C)|].
    exact (IH Hl C).
Qed.

Lemma rewrites_join : forall parts pre, fresh ":" parts -> ~ In ":"%char pre ->
  rewrites (s "::") (s "/") (length parts - 1) (pre ++ join (s "::") parts) (pre ++ join (s "/") parts).
Proof.
  induction parts as [|x [|y l] IH]; intros pre H Hp.
  - constructor.
  - constructor.
  - rewrite !join_cons. apply Forall_cons_iff in H as [Hx Hl].
    replace (length (x :: y :: l) - 1) with (S (length (y :: l) - 1)) by (cbn; lia).
    eapply rw_step with (u := pre ++ x) (v := join (s "::") (y :: l)).
    + replace (pre ++ x ++ s "::" ++ join (s "::") (y :: l))
        with ((pre ++ x) ++ (":"%char :: s ":") ++ join (s "::") (y :: l)) by (rewrite <- app_assoc; reflexivity).
      apply leftmost_fresh. intros C. apply in_app_or in C as [C|C]; contradiction.
    + specialize (IH (pre ++ x ++ s "/") Hl). rewrite <- !app_assoc in IH. rewrite <- app_assoc.
      apply IH. intros C. apply in_app_or in C as [C|C]; [contradiction|].
      apply in_app_or in C as [C|C]; [contradiction|]. cbn in C. destruct C as [C|[]]. discriminate C.
Qed.

Lemma join_length : forall sep l, length l - 1 <= length (join sep l) \/ sep = [].
Proof.
  intros sep l. destruct sep as [|c sep]; [right; reflexivity|left].
  induction l as [|x [|y l] IH]; [cbn; lia|cbn; lia|].
  rewrite join_cons, !app_length. cbn [length] in *. lia.
Qed.

Lemma replaced_colons : forall parts, fresh ":" parts ->
  replaced (join (s "::") parts) (s "::") (s "/") = Ret (join (s "/") parts).
Proof.
  intros parts H. unfold replaced.
  rewrite (replace_all_complete_lemma _ _ _ (length parts - 1) (join (s "/") parts)).
  - reflexivity.
  - apply (rewrites_join parts [] H). intros [].
  - intros C. apply (join_fresh ":"%char (s "/") parts); [cbn; intros [C'|[]]; discriminate|exact H|].
    destruct C as (u & v & ->). apply in_or_app. right. left. reflexivity.
  - destruct (join_length (s "::") parts) as [L|L]; [lia|discriminate].
Qed.

Lemma replaced_slashes : forall t, replaced t (s "/") (s "::") = Ret (subst_char "/" (s "::") t).
Proof.
  intros t. unfold replaced. change (s "/") with ["/"%char].
  rewrite replace_all_char; [reflexivity| |lia]. cbn. intros [C|[C|[]]]; discriminate.
Qed.

Lemma subst_join : forall parts, fresh "/" parts ->
  subst_char "/" (s "::") (join (s "/") parts) = join (s "::") parts.
Proof.
  induction parts as [|x [|y l] IH]; intros H; [reflexivity| |].
  - apply Forall_cons_iff in H as [Hx _]. cbn [join]. apply subst_char_id. exact Hx.
  - apply Forall_cons_iff in H as [Hx Hl]. rewrite !join_cons, !subst_char_app, IH by exact Hl.
    rewrite (subst_char_id _ _ x) by exact Hx. reflexivity.
Qed.

(** every string is a join of slash-free parts *)
Lemma parts_exist : forall u, exists parts, parts <> [] /\ fresh "/" parts /\ u = join (s "/") parts.
Proof.
  induction u as [|c u (parts & Hne & Hf & ->)].
  - exists [[]]. split; [discriminate|]. split; [constructor; [intros []|constructor]|reflexivity].
  - destruct parts as [|x l]; [contradiction|]. apply Forall_cons_iff in Hf as [Hx Hl].
    destruct (Ascii.eqb_spec c "/") as [->|N].
    + exists ([] :: x :: l). split; [discriminate|]. split; [|reflexivity].
      constructor; [intros []|]. constructor; assumption.
    + exists ((c :: x) :: l). split; [discriminate|]. split.
      * constructor; [|exact Hl]. intros [C|C]; [congruence|contradiction].
      * destruct l; reflexivity.
Qed.

Lemma join_fresh_inv : forall c sep parts, ~ In c (join sep parts) -> fresh c parts.
Proof.
  intros c sep. induction parts as [|x [|y l] IH]; intros H.
  - constructor.
  - constructor; [exact H|constructor].
  - rewrite join_cons in H. constructor.
    + intros C. apply H. apply in_or_app. left. exact C.
    + apply IH. intros C. apply H. apply in_or_app. right. apply in_or_app. right. exact C.
Qed.

Lemma join_app2 : forall sep l a, l <> [] -> join sep (l ++ [a]) = join sep l ++ sep ++ a.
Proof.
  intros sep l a. induction l as [|x [|y l] IH]; intros H; [contradiction|reflexivity|].
  change ((x :: y :: l) ++ [a]) with (x :: y :: (l ++ [a])). rewrite !join_cons.
  change (y :: l ++ [a]) with ((y :: l) ++ [a]). rewrite IH by discriminate.
  rewrite <- !app_assoc. reflexivity.
Qed.

(** ** C14 topics *)

Lemma starts_with_prefixb : forall t p, starts_with t p <-> prefixb p t = true.
Proof. intros. symmetry. apply prefixb_iff. Qed.

Lemma prefixb_false : forall t p, ~ starts_with t p -> prefixb p t = false.
Proof.
  intros t p H. destruct (prefixb p t) eqn:E; [|reflexivity]. exfalso. apply H. apply prefixb_iff, E.
Qed.

Lemma topic_round_trip : forall t, starts_with t (s "/") -> demangle_if_ros_topic (mangle_if_ros_topic t) = t.
Proof.
  intros t [v ->]. unfold mangle_if_ros_topic, rfind0. rewrite prefixb_app. reflexivity.
Qed.

Lemma topic_mangled : forall t, starts_with t (s "/") -> mangle_if_ros_topic t = s "rt" ++ t.
Proof. intros t [v ->]. unfold mangle_if_ros_topic, rfind0. rewrite prefixb_app. reflexivity. Qed.

Lemma topic_demangled_all : forall p v, In p [s "rt"; s "rq"; s "rr"] ->
  demangle_if_ros_topic (p ++ s "/" ++ v) = s "/" ++ v /\ get_ros_prefix_if_exists (p ++ s "/" ++ v) = p.
Proof. intros p v [<-|[<-|[<-|[]]]]; split; reflexivity. Qed.

Lemma topic_not_ros : forall t,
  (~ starts_with t (s "/") -> mangle_if_ros_topic t = t) /\
  ((forall p, In p [s "rt"; s "rq"; s "rr"] -> ~ starts_with t (p ++ s "/")) ->
   demangle_if_ros_topic t = t /\ get_ros_prefix_if_exists t = []).
Proof.
  intros t. split.
  - intros H. unfold mangle_if_ros_topic, rfind0. rewrite prefixb_false by exact H. reflexivity.
  - intros H. unfold demangle_if_ros_topic, remove_ros_prefix_if_exists, get_ros_prefix_if_exists, ros_prefixes_,
      ros_topic_prefix, ros_service_requester_prefix, ros_service_response_prefix.
    cbn [remove_prefix_loop get_prefix_loop]. unfold rfind0.
    rewrite !prefixb_false by (apply H; cbn; tauto). split; reflexivity.
Qed.

Lemma topic_mangle_demangle : forall v, mangle_if_ros_topic (demangle_if_ros_topic (s "rt/" ++ v)) = s "rt/" ++ v.
Proof. reflexivity. Qed.

Lemma remove_prefix_spec : forall name prefix r,
  remove_prefix name prefix = r <->
  (name = prefix ++ r /\ starts_with r (s "/")) \/ (~ starts_with name (prefix ++ s "/") /\ r = []).
Proof.
  intros name prefix r. unfold remove_prefix, rfind0.
  destruct (prefixb (prefix ++ s "/") name) eqn:E.
  - apply prefixb_iff in E as [v ->]. unfold substr_to_end. rewrite <- app_assoc, skipn_len_app. split.
    + intros <-. left. split; [reflexivity|]. exists v. reflexivity.
    + intros [[H _]|[H _]].
      * apply app_inv_head in H. exact H.
      * exfalso. apply H. exists v. rewrite <- app_assoc. reflexivity.
  - assert (Hn : ~ starts_with name (prefix ++ s "/")).
    { intros C. apply starts_with_prefixb in C. congruence. }
    split.
    + intros <-. right. split; [exact Hn|reflexivity].
    + intros [[-> [v ->]]|[_ ->]]; [|reflexivity]. exfalso. apply Hn. exists v. rewrite <- app_assoc. reflexivity.
Qed.

(** ** C15 message types *)

Lemma mangle_type_parts : forall t parts T,
  leftmost t (s "/msg/") (join (s "/") parts) T -> T <> [] -> fresh "/" parts ->
  mangle_if_ros_type t = Ret (join (s "::") parts ++ s "::msg::dds_::" ++ T ++ s "_").
Proof.
  intros t parts T Hl HT Hf. unfold mangle_if_ros_type, ros2_msgs_format.
  rewrite (leftmost_sfind _ _ _ _ Hl). destruct Hl as [-> _].
  set (u := join (s "/") parts).
  replace (length (u ++ s "/msg/" ++ T) - length u - length (s "/msg/")) with (length T)
    by (rewrite !app_length; cbn; lia).
  replace (length u + length (s "/msg/")) with (length (u ++ s "/msg/")) by (rewrite app_length; reflexivity).
  rewrite app_assoc.
  replace (substr ((u ++ s "/msg/") ++ T) (length (u ++ s "/msg/")) (length T)) with T.
  2:{ unfold substr. rewrite skipn_len_app, firstn_all. reflexivity. }
  rewrite substr_0_app.
  destruct (length T =? 0) eqn:E; [apply Nat.eqb_eq in E; destruct T; [contradiction|discriminate]|].
  rewrite replaced_slashes. cbn [obind]. rewrite subst_char_app. subst u. rewrite subst_join by exact Hf.
  change (subst_char "/" (s "::") (s "/msg/")) with (s "::msg::").
  rewrite <- app_assoc. reflexivity.
Qed.

Lemma mangle_type_other : forall t,
  ~ contains t (s "/msg/") \/ (exists u, leftmost t (s "/msg/") u []) -> mangle_if_ros_type t = Ret t.
Proof.
  intros t [H|[u H]]; unfold mangle_if_ros_type, ros2_msgs_format.
  - apply sfind_none in H. rewrite H. reflexivity.
  - rewrite (leftmost_sfind _ _ _ _ H). destruct H as [-> _].
    replace (length (u ++ s "/msg/" ++ []) - length u - length (s "/msg/")) with 0
      by (rewrite !app_length; cbn; lia).
    reflexivity.
Qed.

Lemma demangle_type_parts : forall t parts T,
  leftmost t (s "dds_::") (join (s "::") parts) (T ++ s "_") -> fresh ":" parts ->
  demangle_if_ros_type t = Ret (join (s "/") parts ++ T).
Proof.
  intros t parts T Hl Hf. unfold demangle_if_ros_type.
  rewrite (leftmost_sfind _ _ _ _ Hl). destruct Hl as [-> _].
  set (u := join (s "::") parts).
  assert (En : nth_error (u ++ s "dds_::" ++ T ++ s "_") (length (u ++ s "dds_::" ++ T ++ s "_") - 1) = Some "_"%char).
  { rewrite !app_assoc. rewrite app_length. cbn [length s list_ascii_of_string].
    rewrite nth_error_app2 by lia. replace (_ - _) with 0 by lia. reflexivity. }
  rewrite En.
  destruct (u ++ s "dds_::" ++ T ++ s "_") as [|c0 r0] eqn:Et;
    [apply (f_equal (@length ascii)) in Et; rewrite !app_length in Et; cbn in Et; lia|].
  rewrite <- Et. clear En Et c0 r0.
  change (negb ("_" =? "_")%char) with false. cbv iota.
  rewrite substr_0_app. subst u. rewrite replaced_colons by exact Hf. cbn [obind].
  set (u := join (s "::") parts). unfold substr_diff.
  destruct (_ <? _) eqn:E.
  - apply Nat.ltb_lt in E. rewrite !app_length in E. cbn in E. lia.
  - replace (length u + length (s "dds_::")) with (length (u ++ s "dds_::")) by (rewrite app_length; reflexivity).
    replace (length (u ++ s "dds_::" ++ T ++ s "_") - 1 - length (u ++ s "dds_::")) with (length T)
      by (rewrite !app_length; cbn; lia).
    rewrite (app_assoc u). rewrite substr_mid. reflexivity.
Qed.

Lemma demangle_type_other : forall t, t <> [] ->
  ~ ends_with t (s "_") \/ ~ contains t (s "dds_::") -> demangle_if_ros_type t = Ret t.
Proof.
  intros t Hne H. unfold demangle_if_ros_type.
  destruct t as [|c0 r0] eqn:Et; [contradiction|]. rewrite <- Et in *. clear Et c0 r0.
  destruct (exists_last Hne) as (u & c & ->).
  rewrite app_length. cbn [length]. rewrite nth_error_app2 by lia.
  replace (length u + 1 - 1 - length u) with 0 by lia. cbn [nth_error].
  destruct (Ascii.eqb_spec c "_") as [->|N]; cbn [negb]; [|reflexivity].
  destruct H as [H|H].
  - exfalso. apply H. exists u. reflexivity.
  - apply sfind_none in H. rewrite H. reflexivity.
Qed.

Lemma sfind_cons : forall p c t, sfind p (c :: t) = if prefixb p (c :: t) then Some 0 else option_map S (sfind p t).
Proof. intros. apply sfind_eq. Qed.

Lemma subst_slash_cons : forall c w, c <> "/"%char -> subst_char "/" (s "::") (c :: w) = c :: subst_char "/" (s "::") w.
Proof. intros c w N. unfold subst_char. cbn [flat_map]. rewrite (proj2 (Ascii.eqb_neq c "/") N). reflexivity. Qed.

Lemma prefixb_cons : forall x p t, prefixb (x :: p) t = true -> exists t', t = x :: t' /\ prefixb p t' = true.
Proof.
  intros x p [|y t] H; cbn in H; [discriminate|]. apply andb_true_iff in H as [H1 H2].
  apply Ascii.eqb_eq in H1 as ->. exists t. split; [reflexivity|exact H2].
Qed.

(** one character of the translated namespace that is not ':' comes from the namespace *)
Lemma subst_slash_head : forall w R x t, subst_char "/" (s "::") w ++ R = x :: t -> x <> ":"%char -> 
  (w = [] /\ R = x :: t) \/ exists w', w = x :: w' /\ subst_char "/" (s "::") w' ++ R = t.
Proof.
  intros [|c w] R x t E N.
  - left. split; [reflexivity|exact E].
  - right. destruct (Ascii.eqb_spec c "/") as [->|Nc].
    + change (subst_char "/" (s "::") ("/"%char :: w)) with (":"%char :: ":"%char :: subst_char "/" (s "::") w) in E.
      cbn in E. congruence.
    + rewrite subst_slash_cons in E by exact Nc. cbn [app] in E. injection E as -> E. exists w. split; [reflexivity|exact E].
Qed.

Lemma marker_prefix : forall w Y, w <> [] -> ~ In ":"%char w ->
  prefixb (s "dds_::") (subst_char "/" (s "::") w ++ s "dds_::" ++ Y) = true -> starts_with w (s "dds_/").
Proof.
  intros w Y Hne Hc H.
  apply prefixb_cons in H as (t1 & E & H).
  apply subst_slash_head in E as [[E _]|(w1 & -> & <-)]; [contradiction| |discriminate].
  apply prefixb_cons in H as (t2 & E & H).
  apply subst_slash_head in E as [[-> E]|(w2 & -> & <-)]; [cbn in E; injection E as <-; cbn in H; discriminate| |discriminate].
  apply prefixb_cons in H as (t3 & E & H).
  apply subst_slash_head in E as [[-> E]|(w3 & -> & <-)]; [cbn in E; congruence| |discriminate].
  apply prefixb_cons in H as (t4 & E & H).
  apply subst_slash_head in E as [[-> E]|(w4 & -> & <-)]; [cbn in E; congruence| |discriminate].
  apply prefixb_cons in H as (t5 & E & H).
  destruct w4 as [|c w4]; [cbn in E; congruence|].
  destruct (Ascii.eqb_spec c "/") as [->|Nc].
  - exists w4. reflexivity.
  - exfalso. rewrite subst_slash_cons in E by exact Nc. cbn in E. injection E as -> _.
    apply Hc. do 4 right. left. reflexivity.
Qed.

Lemma sfind_marker_skip : forall t, sfind (s "dds_::") (":"%char :: t) = option_map S (sfind (s "dds_::") t).
Proof. intros t. rewrite sfind_cons. reflexivity. Qed.

(** the marker is found after a slash-translated namespace *)
Lemma sfind_marker : forall w Y, ~ In ":"%char w -> ~ contains w (s "dds_/") ->
  sfind (s "dds_::") (subst_char "/" (s "::") w ++ s "dds_::" ++ Y) = Some (length (subst_char "/" (s "::") w)).
Proof.
  induction w as [|c w IH]; intros Y Hc Hn.
  - reflexivity.
  - assert (Hc' : ~ In ":"%char w) by (intros C; apply Hc; right; exact C).
    assert (Hn' : ~ contains w (s "dds_/")) by (intros C; apply Hn; apply (contains_app_r _ [c]); exact C).
    specialize (IH Y Hc' Hn').
    destruct (Ascii.eqb_spec c "/") as [->|N].
    + change (subst_char "/" (s "::") ("/"%char :: w)) with (":"%char :: ":"%char :: subst_char "/" (s "::") w).
      cbn [app]. rewrite !sfind_marker_skip, IH. reflexivity.
    + pose proof (marker_prefix (c :: w) Y ltac:(discriminate) Hc) as Hp.
      rewrite subst_slash_cons in * by exact N. cbn [app] in *. rewrite sfind_cons.
      destruct (prefixb _ _) eqn:E.
      * exfalso. apply Hn. destruct (Hp eq_refl) as [v Hv]. exists [], v. exact Hv.
      * rewrite IH. reflexivity.
Qed.

Lemma sfind_leftmost : forall p u v, sfind p (u ++ p ++ v) = Some (length u) -> leftmost (u ++ p ++ v) p u v.
Proof.
  intros p u v H. split; [reflexivity|]. intros u' v' E.
  destruct (sfind_some _ _ _ H) as (a & b & _ & _ & M). exact (M u' v' E).
Qed.

Lemma leftmost_marker : forall w Y, ~ In ":"%char w -> ~ contains w (s "dds_/") ->
  leftmost (subst_char "/" (s "::") w ++ s "dds_::" ++ Y) (s "dds_::") (subst_char "/" (s "::") w) Y.
Proof. intros w Y Hc Hn. apply sfind_leftmost. apply sfind_marker; assumption. Qed.

Lemma fresh_app : forall c a b, fresh c a -> fresh c b -> fresh c (a ++ b).
Proof. intros. apply Forall_app. split; assumption. Qed.

(** no segment of the namespace ends in "dds_" *)
Lemma msg_segment_ok : forall u k, In k [s "msg"; s "srv"] ->
  ~ contains (u ++ s "/") (s "dds_/") -> ~ contains (u ++ s "/" ++ k ++ s "/") (s "dds_/").
Proof.
  intros u k Hk H (a & b & E). apply H.
  destruct (le_lt_dec (length a + 5) (length (u ++ s "/"))) as [L|L].
  - assert (Ea : a ++ s "dds_/" = firstn (length a + 5) (u ++ s "/")).
    { replace (length a + 5) with (length (a ++ s "dds_/")) in * by (rewrite app_length; reflexivity).
      rewrite <- (firstn_len_app _ (a ++ s "dds_/") b) at 1. rewrite <- app_assoc, <- E.
      replace (u ++ s "/" ++ k ++ s "/") with ((u ++ s "/") ++ k ++ s "/") by (rewrite <- app_assoc; reflexivity).
      rewrite firstn_app. replace (length (a ++ s "dds_/") - length (u ++ s "/")) with 0 by lia.
      cbn [firstn]. rewrite app_nil_r. reflexivity. }
    exists a, (skipn (length a + 5) (u ++ s "/")). rewrite app_assoc, Ea, firstn_skipn. reflexivity.
  - exfalso. apply (f_equal (@rev ascii)) in E. rewrite !rev_app_distr in E.
    rewrite app_length in L. cbn [length s list_ascii_of_string] in L.
    apply (f_equal (@length ascii)) in E as El. rewrite !app_length, !rev_length in El.
    assert (Lb : length (rev b) <= 3) by (rewrite rev_length; destruct Hk as [<-|[<-|[]]]; cbn in El; lia).
    destruct Hk as [<-|[<-|[]]]; cbn in E;
    (destruct (rev b) as [|b1 [|b2 [|b3 [|b4 r]]]]; cbn in Lb; try lia; cbn in E;
      injection E; intros; try discriminate; congruence).
Qed.

Lemma type_round_trip : forall t u T, leftmost t (s "/msg/") u T -> T <> [] ->
  ~ In ":"%char u -> ~ contains (u ++ s "/") (s "dds_/") ->
  exists d, mangle_if_ros_type t = Ret d /\ demangle_if_ros_type d = Ret t.
Proof.
  intros t u T Hl HT Hc Hd. destruct (parts_exist u) as (parts & Hne & Hf & Eu). subst u.
  exists (join (s "::") parts ++ s "::msg::dds_::" ++ T ++ s "_").
  split; [apply mangle_type_parts; assumption|].
  destruct Hl as [-> _].
  assert (E1 : join (s "::") parts ++ s "::msg::dds_::" ++ T ++ s "_" =
               join (s "::") ((parts ++ [s "msg"]) ++ [[]]) ++ s "dds_::" ++ T ++ s "_").
  { rewrite !join_app2 by (try (destruct parts; discriminate); assumption).
    rewrite <- !app_assoc. reflexivity. }
  assert (E2 : join (s "/") parts ++ s "/msg/" ++ T = join (s "/") ((parts ++ [s "msg"]) ++ [[]]) ++ T).
  { rewrite !join_app2 by (try (destruct parts; discriminate); assumption).
    rewrite <- !app_assoc. reflexivity. }
  rewrite E1, E2. apply demangle_type_parts.
  - rewrite <- subst_join.
    + apply leftmost_marker.
      * rewrite !join_app2 by (try (destruct parts; discriminate); assumption). intros C.
        rewrite <- !app_assoc in C.
        apply in_app_or in C as [C|C]; [contradiction|]. cbn in C. intuition discriminate.
      * rewrite !join_app2 by (try (destruct parts; discriminate); assumption).
        rewrite <- !app_assoc. apply (msg_segment_ok _ (s "msg")); [left; reflexivity|exact Hd].
    + apply fresh_app; [apply fresh_app; [exact Hf|]|]; constructor; try constructor;
        cbn; intuition discriminate.
  - apply fresh_app; [apply fresh_app; [exact (join_fresh_inv _ _ _ Hc)|]|]; constructor; try constructor;
        cbn; intuition discriminate.
Qed.

Lemma type_round_trip_refuted_lemma : exists t d,
  t = s "dds_/msg/Type" /\ mangle_if_ros_type t = Ret d /\ demangle_if_ros_type d = Ret (s "msg::dds_::Type").
Proof. exists (s "dds_/msg/Type"), (s "dds_::msg::dds_::Type_"). repeat split. Qed.

(** inverse direction *)
Lemma type_round_trip_back : forall t parts T,
  leftmost t (s "dds_::") (join (s "::") (parts ++ [s "msg"; []])) (T ++ s "_") ->
  parts <> [] -> fresh ":" parts -> fresh "/" parts -> T <> [] ->
  leftmost (join (s "/") parts ++ s "/msg/" ++ T) (s "/msg/") (join (s "/") parts) T ->
  exists r, demangle_if_ros_type t = Ret r /\ r = join (s "/") parts ++ s "/msg/" ++ T /\
            mangle_if_ros_type r = Ret t.
Proof.
  intros t parts T Hl Hne Hc Hs HT Hm. eexists. split; [|split].
  - apply (demangle_type_parts _ _ _ Hl). apply fresh_app; [exact Hc|].
    repeat constructor; cbn; intuition discriminate.
  - change [s "msg"; []] with ([s "msg"] ++ [[]]). rewrite app_assoc.
    rewrite !join_app2 by (try (destruct parts; discriminate); assumption). rewrite <- !app_assoc. reflexivity.
  - change [s "msg"; []] with ([s "msg"] ++ [[]]) in *. rewrite app_assoc in *.
    rewrite !join_app2 in * by (try (destruct parts; discriminate); assumption). rewrite <- !app_assoc in *.
    change (s "/" ++ s "msg" ++ s "/" ++ [] ++ T) with (s "/msg/" ++ T).
    rewrite (mangle_type_parts _ _ _ Hm HT Hs). destruct Hl as [-> _]. rewrite <- !app_assoc. reflexivity.
Qed.

(** ** C16 service topics *)

Lemma demangle_topic_spec : forall prefix suffix t n, ~ In "/"%char suffix -> suffix <> [] ->
  n <> [] -> (demangle_service_topic prefix t suffix = n <->
              t = prefix ++ n ++ suffix /\ starts_with n (s "/")).
Proof.
  intros prefix suffix t n Hs Hse Hn. unfold demangle_service_topic.
  pose proof (proj1 (remove_prefix_spec t prefix (remove_prefix t prefix)) eq_refl) as Hr.
  set (r := remove_prefix t prefix) in *.
  destruct Hr as [[Ht [v Hv]]|[Hns Hr]].
  - assert (Er : str_eqb [] r = false) by (rewrite Hv; reflexivity). rewrite Er.
    destruct (srfind suffix r) as [i|] eqn:F.
    + destruct (length r - i - length suffix =? 0) eqn:L; cbn [negb].
      * apply Nat.eqb_eq in L. pose proof (srfind_at_end _ _ _ F L) as E. unfold substr. cbn [skipn].
        split.
        -- intros <-. rewrite <- E. split; [exact Ht|].
           destruct (firstn i r) as [|c f] eqn:Ef.
           ++ cbn in E. rewrite Hv in E. exfalso. apply Hs. rewrite <- E. left. reflexivity.
           ++ rewrite Hv in E. cbn in E. injection E as <- _. exists f. reflexivity.
        -- intros [Ht2 _]. rewrite Ht in Ht2. apply app_inv_head in Ht2. rewrite Ht2 in E at 1.
           apply app_inv_tail in E. congruence.
      * split; [congruence|]. intros [Ht2 _]. exfalso. rewrite Ht in Ht2. apply app_inv_head in Ht2.
        rewrite Ht2, srfind_end in F. injection F as <-. rewrite Ht2, app_length in L.
        apply Nat.eqb_neq in L. lia.
    + split; [congruence|]. intros [Ht2 _]. exfalso. rewrite Ht in Ht2. apply app_inv_head in Ht2.
      rewrite Ht2, srfind_end in F. discriminate.
  - rewrite Hr. cbn. split; [congruence|]. intros [Ht [v Hv]]. exfalso. apply Hns. rewrite Ht, Hv.
    exists (v ++ suffix). rewrite <- !app_assoc. reflexivity.
Qed.

Lemma request_demangle : forall t n, n <> [] ->
  (demangle_ros_service_request_prefix_from_topic t = n <-> t = s "rq" ++ n ++ s "Request" /\ starts_with n (s "/")).
Proof. intros t n Hn. apply demangle_topic_spec; [cbn; intuition discriminate|discriminate|exact Hn]. Qed.

Lemma reply_demangle : forall t n, n <> [] ->
  (demangle_ros_service_reply_prefix_from_topic t = n <-> t = s "rr" ++ n ++ s "Reply" /\ starts_with n (s "/")).
Proof. intros t n Hn. apply demangle_topic_spec; [cbn; intuition discriminate|discriminate|exact Hn]. Qed.

Lemma service_demangle : forall t n, n <> [] ->
  (demangle_ros_service_prefix_from_topic t = n <->
   (t = s "rq" ++ n ++ s "Request" \/ t = s "rr" ++ n ++ s "Reply") /\ starts_with n (s "/")).
Proof.
  intros t n Hn. unfold demangle_ros_service_prefix_from_topic.
  set (d := demangle_ros_service_reply_prefix_from_topic t).
  destruct (str_eqb [] d) eqn:E; cbn [negb].
  - apply str_eqb_eq in E. rewrite request_demangle by exact Hn. split; [tauto|].
    intros [[H|H] Hs]; [tauto|]. exfalso.
    assert (d = n) by (apply reply_demangle; [exact Hn|tauto]). congruence.
  - split.
    + intros H. apply reply_demangle in H; [|exact Hn]. tauto.
    + intros [[H|H] Hs].
      * exfalso. subst d. apply str_eqb_neq in E.
        set (d := demangle_ros_service_reply_prefix_from_topic t) in *.
        assert (Hd : t = s "rr" ++ d ++ s "Reply" /\ starts_with d (s "/")).
        { apply reply_demangle; [congruence|reflexivity]. }
        destruct Hd as [Hd _]. rewrite H in Hd. discriminate Hd.
      * apply reply_demangle; tauto.
Qed.

Lemma service_mangle_nested : forall n, starts_with n (s "/") ->
  (exists v, n = s "/" ++ v /\ ~ In "/"%char v) ->
  mangle_ros_service_request_prefix_in_topic n = s "rq" ++ n ++ s "Request" /\
  mangle_ros_service_reply_prefix_in_topic n = s "rr" ++ n ++ s "Reply".
Proof.
  intros n _ (v & -> & Hv). unfold mangle_ros_service_request_prefix_in_topic,
    mangle_ros_service_reply_prefix_in_topic, mangle_ros_service_in_topic.
  assert (E : srfind (s "/") (s "/" ++ v) = Some 0).
  { change (s "/" ++ v) with ("/"%char :: v). cbn [srfind].
    assert (F : srfind (s "/") v = None).
    { apply srfind_none. intros C. apply Hv. apply contains_single. exact C. }
    rewrite F. reflexivity. }
  rewrite E. unfold add_suffix, add_prefix. rewrite <- !app_assoc. split; reflexivity.
Qed.

Lemma service_mangle_rejects : forall a b,
  mangle_ros_service_request_prefix_in_topic (s "/" ++ a ++ s "/" ++ b) = [] /\
  mangle_ros_service_reply_prefix_in_topic (s "/" ++ a ++ s "/" ++ b) = [].
Proof.
  intros a b. unfold mangle_ros_service_request_prefix_in_topic,
    mangle_ros_service_reply_prefix_in_topic, mangle_ros_service_in_topic.
  destruct (srfind (s "/") (s "/" ++ a ++ s "/" ++ b)) as [i|] eqn:F; [|split; reflexivity].
  destruct (srfind_some _ _ _ F) as (u & v & _ & _ & M).
  specialize (M (s "/" ++ a) b). rewrite <- app_assoc in M. specialize (M eq_refl).
  destruct i; [cbn in M; lia|]. split; reflexivity.
Qed.

(** ** C17 service types *)

Lemma suffix_response : forall t X, suffix_loop [s "_Response_"; s "_Request_"] (X ++ s "_Response_") t = Some (length X).
Proof.
  intros t X. cbn [suffix_loop]. rewrite srfind_end. rewrite app_length.
  replace (length X + length (s "_Response_") - length X - length (s "_Response_")) with 0 by lia. reflexivity.
Qed.

Lemma rev_suffix : forall t p q, ends_with t p -> ends_with t q ->
  prefixb (rev p) (rev q) = true \/ prefixb (rev q) (rev p) = true.
Proof.
  intros t p q [u Hu] [v Hv]. rewrite Hu in Hv. apply (f_equal (@rev ascii)) in Hv.
  rewrite !rev_app_distr in Hv. revert Hv. generalize (rev p) (rev q) (rev u) (rev v).
  clear. induction l as [|x l IH]; intros [|y l0] a b E; try (left; reflexivity); try (right; reflexivity).
  cbn in E. injection E as -> E. cbn. rewrite Ascii.eqb_refl. cbn. exact (IH _ _ _ E).
Qed.

Lemma suffix_request : forall t X, suffix_loop [s "_Response_"; s "_Request_"] (X ++ s "_Request_") t = Some (length X).
Proof.
  intros t X. cbn [suffix_loop]. rewrite srfind_end. rewrite !app_length.
  replace (length X + length (s "_Request_") - length X - length (s "_Request_")) with 0 by lia.
  destruct (srfind (s "_Response_") (X ++ s "_Request_")) as [i|] eqn:F; [|reflexivity].
  destruct (length X + length (s "_Request_") - i - length (s "_Response_") =? 0) eqn:L; [exfalso|reflexivity].
  apply Nat.eqb_eq in L. assert (E : X ++ s "_Request_" = firstn i (X ++ s "_Request_") ++ s "_Response_").
  { apply srfind_at_end; [exact F|rewrite app_length; exact L]. }
  destruct (rev_suffix (X ++ s "_Request_") (s "_Request_") (s "_Response_")) as [H|H].
  - exists X. reflexivity.
  - eexists. exact E.
  - discriminate.
  - discriminate.
Qed.

Lemma demangle_service_parts : forall t parts T suffix,
  leftmost t (s "dds_::") (join (s "::") parts) (T ++ suffix) -> fresh ":" parts ->
  suffix = s "_Request_" \/ suffix = s "_Response_" ->
  demangle_service_type_only t = Ret (join (s "/") parts ++ T).
Proof.
  intros t parts T suffix Hl Hf Hsuf. unfold demangle_service_type_only.
  rewrite (leftmost_sfind _ _ _ _ Hl). destruct Hl as [-> _].
  set (u := join (s "::") parts).
  assert (E : suffix_loop [s "_Response_"; s "_Request_"] (u ++ s "dds_::" ++ T ++ suffix) (Some 0) =
              Some (length (u ++ s "dds_::" ++ T))).
  { rewrite (app_assoc (s "dds_::")), (app_assoc u).
    destruct Hsuf as [-> | ->]; [apply suffix_request|apply suffix_response]. }
  rewrite E. rewrite substr_0_app. subst u. rewrite replaced_colons by exact Hf. cbn [obind].
  set (u := join (s "::") parts). unfold substr_diff.
  destruct (_ <? _) eqn:Eb; [apply Nat.ltb_lt in Eb; rewrite !app_length in Eb; lia|].
  replace (length u + length (s "dds_::")) with (length (u ++ s "dds_::")) by (rewrite app_length; reflexivity).
  replace (length (u ++ s "dds_::" ++ T) - length (u ++ s "dds_::")) with (length T)
    by (rewrite !app_length; lia).
  rewrite (app_assoc u). rewrite substr_mid. reflexivity.
Qed.

Lemma demangle_service_rejects : forall t,
  ~ contains t (s "dds_::") \/
  (~ contains t (s "_Request_") /\ ~ ends_with t (s "_Response_")) ->
  demangle_service_type_only t = Ret [].
Proof.
  intros t [H|[H1 H2]]; unfold demangle_service_type_only.
  - apply sfind_none in H. rewrite H. reflexivity.
  - destruct (sfind (s "dds_::") t); [|reflexivity]. cbn [suffix_loop].
    apply srfind_none in H1. rewrite H1.
    destruct (srfind (s "_Response_") t) as [i|] eqn:F; [|reflexivity].
    destruct (length t - i - length (s "_Response_") =? 0) eqn:L; [exfalso|reflexivity].
    apply Nat.eqb_eq in L. apply H2. eexists. exact (srfind_at_end _ _ _ F L).
Qed.

Lemma demangle_service_accepts_bad : exists t r,
  ~ ends_with t (s "_Request_") /\ ~ ends_with t (s "_Response_") /\
  demangle_service_type_only t = Ret r /\ r <> [].
Proof.
  exists (s "pkg::srv::dds_::Add_Request_v2"), (s "pkg/srv/Add").
  split; [|split; [|split; [reflexivity|discriminate]]].
  - intros H. destruct (rev_suffix _ _ (s "v2") H) as [E|E]; try discriminate.
    exists (s "pkg::srv::dds_::Add_Request_"). reflexivity.
  - intros H. destruct (rev_suffix _ _ (s "v2") H) as [E|E]; try discriminate.
    exists (s "pkg::srv::dds_::Add_Request_"). reflexivity.
Qed.

Lemma mangle_service_parts : forall t parts T k, k = s "rq" \/ k = s "rr" ->
  leftmost t (s "/srv/") (join (s "/") (k :: parts)) T ->
  fresh "/" parts -> ~ In "/"%char T ->
  mangle_service_type_only t =
  Ret (join (s "::") (k :: parts) ++ s "::srv::dds_::" ++ T ++ (if str_eqb k (s "rq") then s "_Request_" else s "_Response_")).
Proof.
  intros t parts T k Hk Hl Hf HT. unfold mangle_service_type_only, ros2_srv_format.
  rewrite (leftmost_sfind _ _ _ _ Hl). destruct Hl as [-> _].
  set (u := join (s "/") (k :: parts)).
  assert (Hu : exists w, u ++ s "/srv/" ++ T = k ++ s "/" ++ w).
  { subst u. destruct parts as [|x l].
    - exists (s "srv/" ++ T). reflexivity.
    - rewrite join_cons. exists (join (s "/") (x :: l) ++ s "/srv/" ++ T). rewrite <- !app_assoc. reflexivity. }
  replace (length (u ++ s "/srv/" ++ T) - length u - length (s "/srv/")) with (length T)
    by (rewrite !app_length; cbn; lia).
  replace (length u + length (s "/srv/")) with (length (u ++ s "/srv/")) by (rewrite app_length; reflexivity).
  assert (E1 : substr (u ++ s "/srv/" ++ T) 0 (length (u ++ s "/srv/")) = u ++ s "/srv/")
    by (rewrite app_assoc; apply substr_0_app).
  assert (E2 : substr (u ++ s "/srv/" ++ T) (length (u ++ s "/srv/")) (length T) = T).
  { rewrite app_assoc. unfold substr. rewrite skipn_len_app, firstn_all. reflexivity. }
  rewrite E1, E2. destruct Hu as [w Hu]. rewrite Hu.
  assert (Es : forall suf, ~ In "/"%char suf ->
     replaced (u ++ s "/srv/" ++ s "dds_::" ++ T ++ suf) (s "/") (s "::") =
     Ret (join (s "::") (k :: parts) ++ s "::srv::dds_::" ++ T ++ suf)).
  { intros suf Hsuf. rewrite replaced_slashes. rewrite !subst_char_app.
    rewrite (subst_char_id _ _ T) by exact HT. rewrite (subst_char_id _ _ suf) by exact Hsuf.
    subst u. rewrite subst_join.
    - reflexivity.
    - constructor; [|exact Hf]. destruct Hk as [-> | ->]; cbn; intuition discriminate. }
  rewrite <- !app_assoc.
  destruct Hk as [-> | ->].
  - change (sfind (s "rq/") (s "rq" ++ s "/" ++ w)) with (Some 0). cbv iota.
    rewrite Es by (cbn; intuition discriminate). reflexivity.
  - change (sfind (s "rr/") (s "rr" ++ s "/" ++ w)) with (Some 0).
    destruct (sfind (s "rq/") (s "rr" ++ s "/" ++ w)) as [[|i]|] eqn:F.
    + exfalso. apply sfind_some in F as (a & b & E & La & _). destruct a; [|discriminate]. cbn in E. discriminate.
    + rewrite Es by (cbn; intuition discriminate). reflexivity.
    + rewrite Es by (cbn; intuition discriminate). reflexivity.
Qed.

Lemma mangle_service_rejects : forall t,
  ~ contains t (s "/srv/") \/ (~ starts_with t (s "rq/") /\ ~ starts_with t (s "rr/")) ->
  mangle_service_type_only t = Ret [].
Proof.
  assert (H0 : forall p t, ~ starts_with t p -> sfind p t <> Some 0).
  { intros p t H F. apply sfind_some in F as (a & b & E & La & _). destruct a; [|discriminate].
    apply H. exists b. exact E. }
  intros t [H|[H1 H2]]; unfold mangle_service_type_only, ros2_srv_format.
  - apply sfind_none in H. rewrite H. reflexivity.
  - destruct (sfind (s "/srv/") t); [|reflexivity].
    apply H0 in H1, H2.
    destruct (sfind (s "rq/") t) as [[|i]|]; [contradiction| |];
      (destruct (sfind (s "rr/") t) as [[|j]|]; [contradiction| |]; reflexivity).
Qed.

Lemma service_type_round_trip : forall t u T, leftmost t (s "/srv/") u T ->
  starts_with t (s "rq/") \/ starts_with t (s "rr/") ->
  ~ In ":"%char u -> ~ In "/"%char T -> ~ contains (u ++ s "/") (s "dds_/") ->
  exists d, mangle_service_type_only t = Ret d /\ demangle_service_type_only d = Ret t.
Proof.
  intros t u T Hl Hk Hc HT Hd. destruct (parts_exist u) as (parts & Hne & Hf & Eu). subst u.
  destruct parts as [|k parts]; [contradiction|].
  assert (Hkk : k = s "rq" \/ k = s "rr").
  { assert (Ht : exists q w, (q = s "rq" \/ q = s "rr") /\ t = q ++ s "/" ++ w).
    { destruct Hk as [[w ->]|[w ->]]; [exists (s "rq"), w|exists (s "rr"), w]; (split; [auto|reflexivity]). }
    destruct Ht as (q & w & Hq & Ht). assert (k = q); [|subst; exact Hq].
    assert (Hkt : exists w', t = k ++ s "/" ++ w').
    { destruct Hl as [-> _]. destruct parts as [|x l].
      - exists (s "srv/" ++ T). reflexivity.
      - rewrite join_cons. exists (join (s "/") (x :: l) ++ s "/srv/" ++ T). rewrite <- !app_assoc. reflexivity. }
    destruct Hkt as [w' Hw']. rewrite Ht in Hw'.
    apply Forall_cons_iff in Hf as [Hk0 _].
    assert (Hq0 : ~ In "/"%char q) by (destruct Hq as [-> | ->]; cbn; intuition discriminate).
    pose proof (leftmost_fresh "/" [] q w Hq0) as L1. pose proof (leftmost_fresh "/" [] k w' Hk0) as L2.
    cbn [app] in L1, L2. change (s "/" ++ w) with ("/"%char :: w) in Hw'.
    change (s "/" ++ w') with ("/"%char :: w') in Hw'. rewrite Hw' in L1.
    symmetry. exact (proj1 (leftmost_inj _ _ _ _ _ _ L1 L2)). }
  apply Forall_cons_iff in Hf as [Hk0 Hf].
  eexists. split; [eapply mangle_service_parts; eauto|].
  destruct Hl as [-> _].
  set (ps := k :: parts) in *. set (suf := if str_eqb k (s "rq") then _ else _).
  assert (Hps : ps <> []) by discriminate.
  assert (E1 : join (s "::") ps ++ s "::srv::dds_::" ++ T ++ suf =
               join (s "::") ((ps ++ [s "srv"]) ++ [[]]) ++ s "dds_::" ++ T ++ suf).
  { rewrite !join_app2 by (try exact Hps; destruct ps; discriminate). rewrite <- !app_assoc. reflexivity. }
  assert (E2 : join (s "/") ps ++ s "/srv/" ++ T = join (s "/") ((ps ++ [s "srv"]) ++ [[]]) ++ T).
  { rewrite !join_app2 by (try exact Hps; destruct ps; discriminate). rewrite <- !app_assoc. reflexivity. }
  assert (Hfs : fresh "/" ((ps ++ [s "srv"]) ++ [[]])).
  { apply fresh_app; [apply fresh_app; [constructor; assumption|]|]; constructor; try constructor;
        cbn; intuition discriminate. }
  assert (Hfc : fresh ":" ((ps ++ [s "srv"]) ++ [[]])).
  { apply fresh_app; [apply fresh_app; [exact (join_fresh_inv _ _ _ Hc)|]|]; constructor; try constructor;
        cbn; intuition discriminate. }
  rewrite E1, E2. apply demangle_service_parts with (suffix := suf).
  - rewrite <- subst_join by exact Hfs. apply leftmost_marker.
    + rewrite !join_app2 by (try exact Hps; destruct ps; discriminate). intros C. rewrite <- !app_assoc in C.
      apply in_app_or in C as [C|C]; [contradiction|]. cbn in C. intuition discriminate.
    + rewrite !join_app2 by (try exact Hps; destruct ps; discriminate). rewrite <- !app_assoc.
      apply (msg_segment_ok _ (s "srv")); [right; left; reflexivity|exact Hd].
  - exact Hfc.
  - subst suf. destruct (str_eqb k (s "rq")); [left|right]; reflexivity.
Qed.

(** ** Every call returns *)
Lemma replaced_colons_total t : exists r, replaced t (s "::") (s "/") = Ret r.
Proof.
  unfold replaced. destruct (replace_all_terminates_lemma t (s "::") (s "/") (or_intror (le_n 2))) as (t' & n & H). rewrite H by lia. eexists. reflexivity.
Qed.
Lemma demangle_type_total t : t <> [] -> exists r, demangle_if_ros_type t = Ret r.
Proof.
  intro N. unfold demangle_if_ros_type. destruct t as [|c t]; [congruence|]. destruct (nth_error (c :: t) (length (c :: t) - 1)) as [d|] eqn:E.
  - destruct (negb _); [eexists; reflexivity|]. destruct (sfind _ _) as [pos|]; [|eexists; reflexivity]. destruct (replaced_colons_total (substr (c :: t) 0 pos)) as [r ->]. eexists. reflexivity.
  - apply nth_error_None in E. cbn [length] in E. lia.
Qed.
Lemma mangle_type_total t : exists r, mangle_if_ros_type t = Ret r.
Proof.
  unfold mangle_if_ros_type. destruct (sfind _ _) as [pos|]; [|eexists; reflexivity]. cbv zeta. destruct (_ =? 0); [eexists; reflexivity|]. rewrite replaced_slashes. eexists. reflexivity.
Qed.
Lemma demangle_service_total t : exists r, demangle_service_type_only t = Ret r.
Proof.
  unfold demangle_service_type_only. destruct (sfind _ _) as [pos|]; [|eexists; reflexivity]. destruct (suffix_loop _ _ _) as [p|]; [|eexists; reflexivity].
  destruct (replaced_colons_total (substr t 0 pos)) as [r ->]. eexists. reflexivity.
Qed.
Lemma mangle_service_total t : exists r, mangle_service_type_only t = Ret r.
Proof.
  unfold mangle_service_type_only. destruct (sfind ros2_srv_format t) as [pos|]; [|eexists; reflexivity]. cbv zeta.
  destruct (sfind (s "rq/") t) as [[|]|], (sfind (s "rr/") t) as [[|]|]; rewrite ?replaced_slashes; eexists; reflexivity.
Qed.
Lemma types_total t : (demangle_if_ros_type t = UB <-> t = []) /\ (t <> [] -> exists r, demangle_if_ros_type t = Ret r) /\ (exists r, mangle_if_ros_type t = Ret r).
Proof.
  split; [|split; [apply demangle_type_total|apply mangle_type_total]]. split; [|intros ->; reflexivity]. intro U. destruct t as [|c t]; [reflexivity|].
  destruct (demangle_type_total (c :: t)) as [r E]; [discriminate|]. congruence.
Qed.
Lemma service_types_total t : (exists r, demangle_service_type_only t = Ret r) /\ (exists r, mangle_service_type_only t = Ret r).
Proof. split; [apply demangle_service_total|apply mangle_service_total]. Qed.
