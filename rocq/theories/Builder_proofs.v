From Coq Require Import List Bool Arith Lia.
From Verif Require Import Str Str_proofs Outcome Builder_model Builder_spec Reader_model Reader_spec Reader_proofs.
Import ListNotations.

Section Proofs.
Variables (Key Value : Type) (eqK : Key -> Key -> bool).
Hypothesis eqK_ok : forall x y, eqK x y = true <-> x = y.

Lemma eqK_refl k : eqK k k = true.
Proof. apply eqK_ok. reflexivity. Qed.

Lemma eqK_neq a b : a <> b -> eqK a b = false.
Proof. intros H. destruct (eqK a b) eqn:E; [|reflexivity]. apply eqK_ok in E. contradiction. Qed.

Lemma key_dec (a b : Key) : {a = b} + {a <> b}.
Proof. destruct (eqK a b) eqn:E; [left; apply eqK_ok; exact E|right; intros ->; rewrite eqK_refl in E; discriminate]. Qed.

Lemma find_set (m : list (Key * Value)) k v k' :
  map_find eqK (map_set eqK m k v) k' = if eqK k k' then Some v else map_find eqK m k'.
Proof.
  unfold map_find. induction m as [|[k0 v0] m IH]; cbn [map_set List.find fst].
  - destruct (eqK k k'); reflexivity.
  - destruct (eqK k0 k) eqn:E.
    + apply eqK_ok in E as ->. cbn [List.find fst]. destruct (eqK k k'); reflexivity.
    + cbn [List.find fst]. destruct (eqK k0 k') eqn:E'.
      * apply eqK_ok in E' as ->. destruct (eqK k k') eqn:E2; [|reflexivity]. apply eqK_ok in E2 as ->.
        rewrite eqK_refl in E. discriminate.
      * exact IH.
Qed.

Lemma find_set_all ks v : forall (m : list (Key * Value)) k',
  map_find eqK (fold_left (fun r k => map_set eqK r k v) ks m) k' =
  if existsb (fun k => eqK k k') ks then Some v else map_find eqK m k'.
Proof.
  induction ks as [|k ks IH]; intros m k'; [reflexivity|]. cbn [fold_left existsb]. rewrite IH, find_set.
  destruct (existsb _ ks), (eqK k k'); reflexivity.
Qed.

Lemma existsb_key ks k : existsb (fun x => eqK x k) ks = true <-> In k ks.
Proof.
  rewrite existsb_exists. split.
  - intros (x & Hx & E). apply eqK_ok in E as ->. exact Hx.
  - intros H. exists k. split; [exact H|apply eqK_refl].
Qed.

Lemma indexed_snoc (l : list (Value * list Key)) v ks : indexed_map eqK (l ++ [(v, ks)]) =
  fold_left (fun r k => map_set eqK r k v) ks (indexed_map eqK l).
Proof. unfold indexed_map. rewrite fold_left_app. reflexivity. Qed.

Lemma indexed_find : forall (l : list (Value * list Key)) k,
  match map_find eqK (indexed_map eqK l) k with
  | Some v => last_registered l k v
  | None => unregistered l k
  end.
Proof.
  induction l as [|[v ks] l IH] using rev_ind; intros k.
  - cbn. intros v ks [].
  - rewrite indexed_snoc, find_set_all. destruct (existsb (fun x => eqK x k) ks) eqn:E.
    + apply existsb_key in E. exists l, ks, []. split; [reflexivity|]. split; [exact E|intros v' ks' []].
    + assert (Hn : ~ In k ks) by (intros H; apply existsb_key in H; congruence).
      specialize (IH k). destruct (map_find eqK (indexed_map eqK l) k) as [w|].
      * destruct IH as (a & ks0 & b & -> & Hin & Hb). exists a, ks0, (b ++ [(v, ks)]).
        split; [rewrite <- app_assoc; reflexivity|]. split; [exact Hin|]. intros v' ks' H'.
        apply in_app_iff in H' as [H'|[H'|[]]]; [exact (Hb v' ks' H')|injection H' as <- <-; exact Hn].
      * intros v' ks' H'. apply in_app_iff in H' as [H'|[H'|[]]]; [exact (IH v' ks' H')|injection H' as <- <-; exact Hn].
Qed.

Lemma last_registered_unique (l : list (Value * list Key)) k v w : last_registered l k v -> last_registered l k w -> v = w.
Proof.
  intros (a & ks & b & -> & Hk & Hb) (a' & ks' & b' & E & Hk' & Hb').
  revert a' E. induction a as [|x a IH]; intros [|y a'] E; cbn in E.
  - injection E as -> _ _. reflexivity.
  - injection E as <- E. exfalso. apply (Hb w ks'); [rewrite E; apply in_or_app; right; left; reflexivity|exact Hk'].
  - injection E as -> E. exfalso. apply (Hb' v ks); [rewrite <- E; apply in_or_app; right; left; reflexivity|exact Hk].
  - injection E as _ E. exact (IH a' E).
Qed.

Lemma builder_lemma : forall (l : list (Value * list Key)) k,
  (forall v, find_or_throw eqK (indexed_map eqK l) k = Ret v <-> last_registered l k v) /\
  (find_or_throw eqK (indexed_map eqK l) k = Throw ValueNotAllowed <-> unregistered l k).
Proof.
  intros l k. unfold find_or_throw, find_flag. pose proof (indexed_find l k) as H.
  destruct (map_find eqK (indexed_map eqK l) k) as [w|].
  - split.
    + intros v. split; [intros E; injection E as <-; exact H|]. intros H'. f_equal. exact (last_registered_unique l k w v H H').
    + split; [discriminate|]. intros Hu. destruct H as (a & ks & b & -> & Hk & _). exfalso.
      apply (Hu w ks); [apply in_or_app; right; left; reflexivity|exact Hk].
  - split; [|split; auto]. intros v. split; [discriminate|]. intros (a & ks & b & -> & Hk & _). exfalso.
    apply (H v ks); [apply in_or_app; right; left; reflexivity|exact Hk].
Qed.

Lemma key_map_lemma : forall (m : list (Key * Value)), NoDup (map fst m) -> forall k,
  (forall v, find_or_throw eqK m k = Ret v <-> In (k, v) m) /\
  (find_or_throw eqK m k = Throw ValueNotAllowed <-> ~ In k (map fst m)).
Proof.
  unfold find_or_throw, find_flag, map_find.
  induction m as [|[k0 v0] m IH]; intros Hnd k; cbn [map fst List.find].
  - split; [intros v; split; [discriminate|intros []]|]. split; [intros _ []|reflexivity].
  - cbn [map fst] in Hnd. apply NoDup_cons_iff in Hnd as [Hni Hnd]. destruct (eqK k0 k) eqn:E.
    + apply eqK_ok in E as ->. cbn [option_map snd]. split.
      * intros v. split; [intros Ev; injection Ev as <-; left; reflexivity|]. intros [Ev|Hin]; [injection Ev as <-; reflexivity|].
        exfalso. apply Hni. apply in_map_iff. exists (k, v). split; [reflexivity|exact Hin].
      * split; [discriminate|]. intros H. exfalso. apply H. left. reflexivity.
    + destruct (IH Hnd k) as [H1 H2]. assert (Hne : k0 <> k) by (intros ->; rewrite eqK_refl in E; discriminate). split.
      * intros v. rewrite H1. split; [intros H; right; exact H|]. intros [Ev|H]; [injection Ev as Ek _; contradiction|exact H].
      * rewrite H2. cbn [In]. tauto.
Qed.
End Proofs.

(** ** Commands *)

Lemma str_eqb_iff x y : str_eqb x y = true <-> x = y.
Proof. apply str_eqb_eq. Qed.

Lemma command_lemma : forall (E : Type) (l : list (E * list str)) (args : list argument) (a : argument) (rest : list argument),
  args = a :: rest -> Forall writable args -> Forall (fun a => ~ leading_space a) args ->
  exists found, read_next_command (indexed_map str_eqb l) (write_line args) = Ret (map value args, found) /\
    forall e, found = Some e <-> last_registered l (value a) e.
Proof.
  intros E l args a rest -> Hw Hl. unfold read_next_command. rewrite read_back_lemma by (assumption || discriminate).
  cbn [map]. eexists. split; [reflexivity|]. intros e.
  destruct (builder_lemma str E str_eqb str_eqb_iff l (value a)) as [H _]. rewrite <- H. unfold find_or_throw.
  destruct (find_flag str_eqb (indexed_map str_eqb l) (value a)); split; intro X; try discriminate; injection X as ->; reflexivity.
Qed.

Lemma command_safe_lemma : forall (E : Type) (b : list (str * E)) line, exists args found,
  read_next_command b line = Ret (args, found) /\ args <> [].
Proof.
  intros E b line. destruct (some_argument_lemma line) as (first & rest & H). unfold read_next_command. rewrite H.
  eexists _, _. split; [reflexivity|discriminate].
Qed.

(** ** Enumerations *)

Lemma enum_search_spec t : forall names i,
  match enum_search names i t with
  | Some e => i <= e /\ nth_error names (e - i) = Some t /\ forall j, j < e - i -> nth_error names j <> Some t
  | None => ~ In t names
  end.
Proof.
  induction names as [|n names IH]; intros i; cbn [enum_search]; [intros []|].
  destruct (str_eqb n t) eqn:E.
  - apply str_eqb_eq in E as ->. rewrite Nat.sub_diag. split; [lia|]. split; [reflexivity|lia].
  - assert (Hne : n <> t) by (intros ->; rewrite (proj2 (str_eqb_eq t t) eq_refl) in E; discriminate).
    specialize (IH (S i)). destruct (enum_search names (S i) t) as [e|].
    + destruct IH as (H1 & H2 & H3). split; [lia|]. replace (e - i) with (S (e - S i)) by lia. split; [exact H2|].
      intros [|j] Hj; [cbn; congruence|]. cbn. apply H3. lia.
    + intros [H|H]; [exact (Hne H)|exact (IH H)].
Qed.

Lemma enum_from_to_lemma : forall names e, NoDup names -> e < length names ->
  exists n, enum_to_string names e = Ret n /\ enum_from_string names n = Ret e.
Proof.
  intros names e Hnd He. unfold enum_to_string, enum_from_string, enum_find.
  destruct (nth_error names e) as [n|] eqn:E; [|apply nth_error_None in E; lia]. exists n. split; [reflexivity|].
  pose proof (enum_search_spec n names 0) as H. destruct (enum_search names 0 n) as [e'|].
  - f_equal. destruct H as (_ & H & _). rewrite Nat.sub_0_r in H.
    apply (NoDup_nth_error names); [exact Hnd|apply nth_error_Some; congruence|congruence].
  - exfalso. apply H. eapply nth_error_In. exact E.
Qed.

Lemma enum_to_from_lemma : forall names t e, enum_from_string names t = Ret e ->
  e < length names /\ enum_to_string names e = Ret t.
Proof.
  intros names t e. unfold enum_to_string, enum_from_string, enum_find. pose proof (enum_search_spec t names 0) as H.
  destruct (enum_search names 0 t) as [e'|]; [|discriminate]. intros E. injection E as ->.
  destruct H as (_ & H & _). rewrite Nat.sub_0_r in H. rewrite H. split; [apply nth_error_Some; congruence|reflexivity].
Qed.

Lemma enum_reject_lemma : forall names t, enum_from_string names t = Throw Initialization <-> ~ In t names.
Proof.
  intros names t. unfold enum_from_string, enum_find. pose proof (enum_search_spec t names 0) as H.
  destruct (enum_search names 0 t) as [e|]; [|split; auto]. split; [discriminate|]. intros Hn. exfalso. apply Hn.
  destruct H as (_ & H & _). eapply nth_error_In. exact H.
Qed.

Lemma enum_values_lemma : forall names e, In e (enum_all_values names) <-> e < length names.
Proof. intros. unfold enum_all_values. rewrite in_seq. lia. Qed.

Lemma count_arguments_lemma : forall n, n <= 18 -> count_arguments n = Some (Number n).
Proof. intros n H. do 19 (destruct n as [|n]; [reflexivity|]). lia. Qed.

Lemma count_arguments_over : forall n, 18 < n -> count_arguments n = Some (User 19).
Proof.
  intros n H. unfold count_arguments.
  change (nth_error (map User (seq 1 n) ++ descending 18) 18 = Some (User 19)).
  rewrite nth_error_app1 by (rewrite map_length, seq_length; exact H).
  rewrite nth_error_map. replace (nth_error (seq 1 n) 18) with (Some 19); [reflexivity|].
  symmetry. rewrite (nth_error_nth' _ 0) by (rewrite seq_length; exact H). rewrite seq_nth by exact H. reflexivity.
Qed.

Lemma for_each_lemma : forall n, 1 <= n <= 18 -> for_each_selected n = Some (Number n).
Proof. intros n H. destruct n as [|n]; [lia|]. do 18 (destruct n as [|n]; [reflexivity|]). lia. Qed.
