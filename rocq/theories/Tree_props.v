(** Properties C27, C28. *)
From Coq Require Import List Bool Arith Permutation.
From Verif Require Import Tree_model Tree_spec Tree_proofs.
Import ListNotations.

Definition sample_tree : tree nat := Node 0 [Node 1 [Node 2 []; Node 3 []]; Node 2 []].

(** *** C27 *)

Theorem C27_leaf : forall (Info : Type) (t : tree Info), leaf t = true <-> forall d n, path t d n -> d = t.
Proof. exact leaf_lemma. Qed.
Print Assumptions C27_leaf.

Example C27_leaf_nonvacuous : leaf (Node 3 []) = true /\ leaf sample_tree = false.
Proof. split; reflexivity. Qed.

(** [all_nodes] gives the descendants, each as often as it occurs. *)
Theorem C27_all_nodes : forall (Info : Type) (t : tree Info) ds, descendants (branches t) ds -> Permutation (all_nodes t) ds.
Proof. exact all_nodes_lemma. Qed.
Print Assumptions C27_all_nodes.

Theorem C27_all_nodes_reachable : forall (Info : Type) (t d : tree Info), In d (all_nodes t) <-> exists n, path t d (S n).
Proof. exact all_nodes_in_lemma. Qed.
Print Assumptions C27_all_nodes_reachable.

Theorem C27_descendants_exist : forall (Info : Type) (l : list (tree Info)), exists ds, descendants l ds.
Proof. exact descendants_total. Qed.
Print Assumptions C27_descendants_exist.

Example C27_all_nodes_nonvacuous : map info (all_nodes sample_tree) = [2; 3; 1; 2] /\
  descendants (branches sample_tree) [Node 1 [Node 2 []; Node 3 []]; Node 2 []; Node 3 []; Node 2 []].
Proof.
  split; [reflexivity|].
  exact (desc_cons 1 _ _ [Node 2 []; Node 3 []] [Node 2 []]
    (desc_cons 2 [] _ [] [Node 3 []] desc_nil (desc_cons 3 [] [] [] [] desc_nil desc_nil)) (desc_cons 2 [] [] [] [] desc_nil desc_nil)).
Qed.

(** Full statement (false): [is_height t (depth t)] for every tree.  It holds only of leaves, *)
Theorem C27_depth_partial : forall (Info : Type) (t : tree Info), is_height t (depth t) <-> leaf t = true.
Proof. exact depth_lemma. Qed.
Print Assumptions C27_depth_partial.

(** since the depth reported is always zero. *)
Theorem C27_depth_always_zero_refuted : forall (Info : Type) (t : tree Info), depth t = 0.
Proof. exact depth_zero. Qed.
Print Assumptions C27_depth_always_zero_refuted.

Example C27_depth_refuted_witness : depth sample_tree = 0 /\ path sample_tree (Node 3 []) 2.
Proof.
  split; [reflexivity|]. apply path_down with (b := Node 1 [Node 2 []; Node 3 []]); [left; reflexivity|].
  apply path_down with (b := Node 3 []); [right; left; reflexivity|constructor].
Qed.

(** *** C28 *)

Theorem C28_contains : forall (V : Type) (eqV : V -> V -> bool) (heap : nat -> V),
  (forall x y, eqV x y = true <-> x = y) -> forall set e,
  set_contains eqV heap set e = true <-> In (pointed heap e) (map (pointed heap) set).
Proof. exact contains_lemma. Qed.
Print Assumptions C28_contains.

Example C28_contains_nonvacuous :
  set_contains Nat.eqb (fun a => a * a) [Some 2; None] (Some 2) = true /\
  set_contains Nat.eqb (fun a => 7) [Some 2; None] (Some 5) = true /\
  set_contains Nat.eqb (fun a => a) [Some 2] None = false.
Proof. repeat split. Qed.

(** Full statement (false, see below): the same without the assumption on [s1]. *)
Theorem C28_equal_partial : forall (V : Type) (eqV : V -> V -> bool) (heap : nat -> V),
  (forall x y, eqV x y = true <-> x = y) -> forall s1 s2, NoDup (map (pointed heap) s1) ->
  (sets_equal eqV heap s1 s2 = true <-> Permutation (map (pointed heap) s1) (map (pointed heap) s2)).
Proof. exact sets_equal_lemma. Qed.
Print Assumptions C28_equal_partial.

Example C28_equal_partial_nonvacuous :
  NoDup (map (pointed (fun a => a mod 3)) [Some 0; None; Some 4]) /\
  sets_equal Nat.eqb (fun a => a mod 3) [Some 0; None; Some 4] [Some 1; Some 3; None] = true.
Proof. split; [repeat constructor; cbn; intuition discriminate|reflexivity]. Qed.

Theorem C28_equal_complete : forall (V : Type) (eqV : V -> V -> bool) (heap : nat -> V),
  (forall x y, eqV x y = true <-> x = y) -> forall s1 s2,
  Permutation (map (pointed heap) s1) (map (pointed heap) s2) -> sets_equal eqV heap s1 s2 = true.
Proof. exact sets_equal_complete. Qed.
Print Assumptions C28_equal_complete.

Theorem C28_symmetric_partial : forall (V : Type) (eqV : V -> V -> bool) (heap : nat -> V),
  (forall x y, eqV x y = true <-> x = y) -> forall s1 s2, NoDup (map (pointed heap) s1) -> NoDup (map (pointed heap) s2) ->
  sets_equal eqV heap s1 s2 = sets_equal eqV heap s2 s1.
Proof. exact sets_equal_sym_lemma. Qed.
Print Assumptions C28_symmetric_partial.

(** Two pointers to equal values in the first set: the answer is wrong and not symmetric. *)
Theorem C28_equal_refuted : exists heap s1 s2, NoDup s1 /\ NoDup s2 /\
  sets_equal Nat.eqb heap s1 s2 = true /\ sets_equal Nat.eqb heap s2 s1 = false /\
  ~ Permutation (map (pointed heap) s1) (map (pointed heap) s2).
Proof. exact sets_equal_refute. Qed.
Print Assumptions C28_equal_refuted.

(** *** C64 *)
Theorem C64_add_branch : forall (Info : Type) (t b : tree Info),
  info (add_branch t b) = info t /\ branches (add_branch t b) = branches t ++ [b] /\ leaf (add_branch t b) = false /\
  Permutation (all_nodes (add_branch t b)) (b :: all_nodes b ++ all_nodes t).
Proof. exact add_branch_lemma. Qed.
Print Assumptions C64_add_branch.

Example C64_add_branch_nonvacuous : map info (all_nodes (add_branch sample_tree (Node 7 [Node 8 []]))) = [8; 2; 3; 1; 2; 7].
Proof. reflexivity. Qed.
