From Coq Require Import List Bool Arith Lia Permutation.
From Verif Require Import Tree_model Tree_spec.
Import ListNotations.

Section Tree.
Variable Info : Type.
Implicit Type t : tree Info.

Lemma tree_ind' (P : tree Info -> Prop) : (forall i bs, Forall P bs -> P (Node i bs)) -> forall t, P t.
Proof.
  intros H. fix IH 1. intros [i bs]. apply H. induction bs as [|b bs IHbs]; constructor; [apply IH|exact IHbs].
Qed.

Lemma depth_zero : forall t, depth t = 0.
Proof.
  induction t as [i bs IH] using tree_ind'. cbn [depth].
  assert (G : forall bs : list (tree Info), Forall (fun b => depth b = 0) bs -> fold_left (fun m b => Nat.max m (depth b)) bs 0 = 0).
  { clear. intros bs H. induction H as [|b bs Hb _ IH]; cbn [fold_left]; [reflexivity|]. rewrite Hb. exact IH. }
  apply G. exact IH.
Qed.

Lemma leaf_lemma : forall t, leaf t = true <-> forall d n, path t d n -> d = t.
Proof.
  intros [i bs]. unfold leaf. cbn [branches]. split.
  - destruct bs; [|discriminate]. intros _ d n H. inversion H; subst; [reflexivity|]. cbn in *. contradiction.
  - destruct bs as [|b bs]; [reflexivity|]. intros H. exfalso.
    assert (E : b = Node i (b :: bs)) by (apply (H b 1); eapply path_down; [left; reflexivity|constructor]).
    clear H. revert i bs E. induction b as [j cs IH] using tree_ind'. intros i bs E. injection E as _ E. rewrite E in IH.
    apply Forall_cons_iff in IH as [IH _]. apply (IH j bs). f_equal. exact E.
Qed.

Lemma leaf_depth_lemma : forall t, leaf t = true <-> is_height t 0.
Proof.
  intros [i bs]. unfold leaf, is_height. cbn [branches]. destruct bs as [|b bs].
  - split; [|reflexivity]. intros _. split; [exists (Node i []); constructor|]. intros d m H. inversion H; subst; [lia|]. cbn in *; contradiction.
  - split; [discriminate|]. intros [_ H]. exfalso. specialize (H b 1). assert (1 <= 0); [|lia]. apply H.
    eapply path_down; [left; reflexivity|constructor].
Qed.

(** *** all_nodes *)
Lemma all_nodes_fold : forall (bs acc : list (tree Info)), fold_left (fun result b => all_nodes b ++ result) bs acc =
  concat (rev (map all_nodes bs)) ++ acc.
Proof.
  induction bs as [|b bs IH]; intros acc; [reflexivity|]. cbn [fold_left map rev].
  rewrite IH, concat_app. cbn [concat]. rewrite app_nil_r, app_assoc. reflexivity.
Qed.

Lemma descendants_app : forall (l1 l2 d1 d2 : list (tree Info)), descendants l1 d1 -> descendants l2 d2 -> descendants (l1 ++ l2) (d1 ++ d2).
Proof.
  intros l1 l2 d1 d2 H. revert l2 d2. induction H as [|i bs rest lb lr Hb _ Hr IH]; intros l2 d2 H2; [exact H2|].
  cbn [app]. rewrite <- app_assoc. constructor; [exact Hb|exact (IH l2 d2 H2)].
Qed.

Lemma descendants_total : forall l : list (tree Info), exists ds, descendants l ds.
Proof.
  assert (G : forall t, exists ds, descendants (branches t) ds).
  { induction t as [i bs IH] using tree_ind'. cbn [branches]. induction IH as [|[j cs] bs Hb _ IH]; [exists []; constructor|].
    destruct Hb as (lb & Hb). destruct IH as (lr & Hr). eexists. constructor; [exact Hb|exact Hr]. }
  induction l as [|[i bs] l (lr & IH)]; [exists []; constructor|]. destruct (G (Node i bs)) as (lb & Hb).
  eexists. constructor; [exact Hb|exact IH].
Qed.

Lemma descendants_fun : forall l (d1 : list (tree Info)), descendants l d1 -> forall d2 : list (tree Info), descendants l d2 -> d1 = d2.
Proof.
  intros l d1 H. induction H as [|i bs rest lb lr Hb IHb Hr IHr]; intros d2 H2; inversion H2; subst; [reflexivity|].
  f_equal. f_equal; [apply IHb|apply IHr]; assumption.
Qed.

Lemma all_nodes_lemma : forall t ds, descendants (branches t) ds -> Permutation (all_nodes t) ds.
Proof.
  induction t as [i bs IH] using tree_ind'. intros ds Hd. cbn [branches] in Hd. cbn [all_nodes]. rewrite all_nodes_fold.
  transitivity (concat (map all_nodes bs) ++ bs).
  { apply Permutation_app_tail. clear. induction bs as [|b bs IHb]; [reflexivity|]. cbn [map rev concat].
    rewrite concat_app. cbn [concat]. rewrite app_nil_r. rewrite Permutation_app_comm. apply Permutation_app_head. exact IHb. }
  revert ds Hd. induction IH as [|[j cs] bs Hb _ IH]; intros ds Hd.
  - inversion Hd. reflexivity.
  - inversion Hd as [|? ? ? lb lr Hlb Hlr]; subst. specialize (IH lr Hlr). specialize (Hb lb Hlb).
    cbn [map concat]. rewrite <- app_assoc. rewrite <- IH. 
    transitivity (Node j cs :: all_nodes (Node j cs) ++ concat (map all_nodes bs) ++ bs).
    + rewrite !app_assoc. symmetry. apply Permutation_middle.
    + apply perm_skip. apply Permutation_app_tail. exact Hb.
Qed.

Lemma all_nodes_in_lemma : forall t (d : tree Info), In d (all_nodes t) <-> exists n, path t d (S n).
Proof.
  induction t as [i bs IH] using tree_ind'. intros d. cbn [all_nodes]. rewrite all_nodes_fold, in_app_iff, in_concat.
  rewrite Forall_forall in IH. split.
  - intros [(l & Hl & Hd)|Hd].
    + apply in_rev in Hl. apply in_map_iff in Hl as (b & <- & Hb). apply IH in Hd as (n & Hn); [|exact Hb].
      exists (S n). eapply path_down; [exact Hb|exact Hn].
    + exists 0. eapply path_down; [exact Hd|constructor].
  - intros (n & Hn). inversion Hn as [|t' b d' m Hb Hp]; subst. cbn [branches] in Hb. destruct n as [|n].
    + right. inversion Hp. subst. exact Hb.
    + left. exists (all_nodes b). split; [apply -> in_rev; apply in_map; exact Hb|]. apply IH; [exact Hb|]. exists n. exact Hp.
Qed.

Lemma height_exists : forall t, exists n, is_height t n.
Proof.
  induction t as [i bs IH] using tree_ind'.
  assert (G : forall l : list (tree Info), Forall (fun t => exists n, is_height t n) l -> l = [] \/
    exists n, (exists b, In b l /\ exists d, path b d n) /\ forall b d m, In b l -> path b d m -> m <= n).
  { clear. intros l H. induction H as [|b l (n & (d & Hd) & Hn) _ IH]; [left; reflexivity|]. right. destruct IH as [->|(m & (c & Hc & e & He) & Hm)].
    - exists n. split; [exists b; split; [left; reflexivity|exists d; exact Hd]|]. intros b' d' m [<-|[]] Hp. exact (Hn d' m Hp).
    - destruct (le_lt_dec n m) as [L|L].
      + exists m. split; [exists c; split; [right; exact Hc|exists e; exact He]|]. intros b' d' k [<-|Hb'] Hp; [specialize (Hn _ _ Hp); lia|exact (Hm b' d' k Hb' Hp)].
      + exists n. split; [exists b; split; [left; reflexivity|exists d; exact Hd]|]. intros b' d' k [<-|Hb'] Hp; [exact (Hn _ _ Hp)|specialize (Hm b' d' k Hb' Hp); lia]. }
  destruct (G bs IH) as [->|(n & (b & Hb & d & Hd) & Hn)].
  - exists 0. split; [eexists; constructor|]. intros d m H. inversion H; subst; [lia|]. cbn in *; contradiction.
  - exists (S n). split; [exists d; eapply path_down; [exact Hb|exact Hd]|]. intros e m H. inversion H as [|t' b' d' m' Hb' Hp]; subst; [lia|].
    specialize (Hn b' e m' Hb' Hp). lia.
Qed.
End Tree.

Lemma depth_lemma : forall (Info : Type) (t : tree Info), is_height t (depth t) <-> leaf t = true.
Proof. intros Info t. rewrite depth_zero. symmetry. apply leaf_depth_lemma. Qed.

(** ** Pointers *)
Section Pointers.
Variables (V : Type) (eqV : V -> V -> bool) (heap : nat -> V).
Hypothesis eqV_ok : forall x y, eqV x y = true <-> x = y.

Lemma ptr_eqb_ok a b : ptr_eqb a b = true <-> a = b.
Proof.
  destruct a as [x|], b as [y|]; cbn; try (split; discriminate || reflexivity). rewrite Nat.eqb_eq. split; [congruence|intros H; injection H as ->; reflexivity].
Qed.

Lemma contains_lemma : forall set e, set_contains eqV heap set e = true <-> In (pointed heap e) (map (pointed heap) set).
Proof.
  intros set e. unfold set_contains, pointed. rewrite in_map_iff. destruct (existsb (ptr_eqb e) set) eqn:E.
  - apply existsb_exists in E as (x & Hx & Ex). apply ptr_eqb_ok in Ex as <-. split; [|reflexivity]. intros _. exists e. split; [reflexivity|exact Hx].
  - assert (Hn : ~ In e set). { intros H. assert (X : existsb (ptr_eqb e) set = true) by (apply existsb_exists; exists e; split; [exact H|apply ptr_eqb_ok; reflexivity]). congruence. }
    destruct e as [a|].
    + rewrite existsb_exists. split.
      * intros ([p|] & Hp & Ep); [|discriminate]. apply eqV_ok in Ep. exists (Some p). cbn. split; [congruence|exact Hp].
      * intros ([p|] & Ep & Hp); [|discriminate]. exists (Some p). split; [exact Hp|]. apply eqV_ok. cbn in Ep. congruence.
    + split; [discriminate|]. intros ([p|] & Ep & Hp); [discriminate|contradiction].
Qed.

Lemma sets_equal_spec : forall s1 s2, sets_equal eqV heap s1 s2 = true <->
  length s1 = length s2 /\ incl (map (pointed heap) s1) (map (pointed heap) s2).
Proof.
  intros s1 s2. unfold sets_equal. destruct (length s1 =? length s2) eqn:E; cbn [negb].
  - apply Nat.eqb_eq in E. rewrite forallb_forall. split.
    + intros H. split; [exact E|]. intros v Hv. apply in_map_iff in Hv as (p & <- & Hp). apply contains_lemma. exact (H p Hp).
    + intros [_ H] p Hp. apply contains_lemma. apply H. apply in_map. exact Hp.
  - apply Nat.eqb_neq in E. split; [discriminate|]. intros [H _]. contradiction.
Qed.

Lemma sets_equal_lemma : forall s1 s2, NoDup (map (pointed heap) s1) ->
  (sets_equal eqV heap s1 s2 = true <-> Permutation (map (pointed heap) s1) (map (pointed heap) s2)).
Proof.
  intros s1 s2 Hnd. rewrite sets_equal_spec. split.
  - intros [Hl Hi]. apply NoDup_Permutation_bis; [exact Hnd|rewrite !map_length; lia|exact Hi].
  - intros H. split; [apply Permutation_length in H; rewrite !map_length in H; exact H|]. intros v Hv. eapply Permutation_in; [exact H|exact Hv].
Qed.

Lemma sets_equal_complete : forall s1 s2, Permutation (map (pointed heap) s1) (map (pointed heap) s2) -> sets_equal eqV heap s1 s2 = true.
Proof.
  intros s1 s2 H. apply sets_equal_spec. split; [apply Permutation_length in H; rewrite !map_length in H; exact H|].
  intros v Hv. eapply Permutation_in; [exact H|exact Hv].
Qed.

Lemma sets_equal_sym_lemma : forall s1 s2, NoDup (map (pointed heap) s1) -> NoDup (map (pointed heap) s2) ->
  sets_equal eqV heap s1 s2 = sets_equal eqV heap s2 s1.
Proof.
  intros s1 s2 H1 H2. apply eq_true_iff_eq. rewrite !sets_equal_lemma by assumption. split; apply Permutation_sym.
Qed.
End Pointers.

Lemma sets_equal_refute : exists heap s1 s2, NoDup s1 /\ NoDup s2 /\
  sets_equal Nat.eqb heap s1 s2 = true /\ sets_equal Nat.eqb heap s2 s1 = false /\
  ~ Permutation (map (pointed heap) s1) (map (pointed heap) s2).
Proof.
  exists (fun a => if a =? 3 then 2 else 1), [Some 0; Some 1], [Some 2; Some 3].
  split; [repeat constructor; cbn; intuition discriminate|]. split; [repeat constructor; cbn; intuition discriminate|].
  split; [reflexivity|]. split; [reflexivity|]. intros H. cbn in H.
  apply Permutation_cons_inv in H. apply Permutation_length_1 in H. discriminate.
Qed.

Lemma add_branch_lemma : forall (Info : Type) (t b : tree Info),
  info (add_branch t b) = info t /\ branches (add_branch t b) = branches t ++ [b] /\ leaf (add_branch t b) = false /\
  Permutation (all_nodes (add_branch t b)) (b :: all_nodes b ++ all_nodes t).
Proof.
  intros Info [i bs] b. unfold add_branch. cbn [info branches]. split; [reflexivity|]. split; [reflexivity|]. split; [destruct bs; reflexivity|].
  cbn [all_nodes]. rewrite !all_nodes_fold, map_app, rev_app_distr, concat_app. cbn [map rev app concat]. rewrite app_nil_r.
  rewrite <- app_assoc. etransitivity; [|apply Permutation_sym, Permutation_middle]. apply Permutation_app_head.
  rewrite app_assoc. apply Permutation_sym, Permutation_cons_append.
Qed.
