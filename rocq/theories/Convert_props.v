(** C131: convert_set_to_shared and get_keys. *)
From Coq Require Import List Bool Arith Permutation Lia.
From Verif Require Import Convert_model Convert_spec Convert_proofs.

(** The set of pointers has one new object for each element, equal to it, and nothing else; whatever the
    allocator does, the objects that there were are not touched nor pointed to. *)
Theorem C131_convert : forall (Child : Type) (fresh : heap Child -> nat) set h h' result, allocator fresh -> convert_set_to_shared fresh set h [] = (h', result) ->
  in_order Nat.ltb result /\ length result = length set /\ Permutation (map (object h') result) (map Some set) /\
  (forall a x, object h a = Some x -> object h' a = Some x /\ ~ In a result).
Proof. exact convert_lemma. Qed.
Print Assumptions C131_convert.

(** get_keys gives the keys of a map, each once and in order, *)
Theorem C131_keys : forall (Key Value : Type) (ltb : Key -> Key -> bool) (m : list (Key * Value)), weak_order ltb -> exact_order ltb -> NoDup (map fst m) ->
  Permutation (get_keys ltb m) (map fst m) /\ in_order ltb (get_keys ltb m).
Proof. intros Key Value ltb m W X N. split; [exact (exact_keys_lemma ltb W m X N)|exact (proj1 (keys_lemma ltb W m))]. Qed.
Print Assumptions C131_keys.

(** for orders with equivalent keys, one of each class, *)
Theorem C131_classes : forall (Key Value : Type) (ltb : Key -> Key -> bool) (m : list (Key * Value)), weak_order ltb ->
  in_order ltb (get_keys ltb m) /\ (forall x, In x (get_keys ltb m) -> In x (map fst m)) /\
  (forall k, In k (map fst m) -> exists x, In x (get_keys ltb m) /\ equivalent ltb x k).
Proof. intros Key Value ltb m W. exact (keys_lemma ltb W m). Qed.
Print Assumptions C131_classes.

(** so that keys of an unordered_map, which compares them with ==, may be missing. *)
Theorem C131_missing_refuted : exists (ltb : nat -> nat -> bool) (m : list (nat * nat)), weak_order ltb /\ NoDup (map fst m) /\ length m = 2 /\ get_keys ltb m = [3].
Proof.
  exists (fun x y => Nat.ltb (x / 10) (y / 10)), [(3, 0); (4, 1)]. split; [|split; [repeat constructor; cbn; intuition discriminate|split; reflexivity]].
  destruct nat_weak as (H1 & H2 & H3). split; [intros x; apply H1|]. split; [intros x y z; apply H2|intros x y z; apply H3].
Qed.
Print Assumptions C131_missing_refuted.

Example C131_convert_nonvacuous : allocator (fun h : heap nat => S (list_max (map fst h))) /\
  convert_set_to_shared (fun h : heap nat => S (list_max (map fst h))) [7; 8] [(4, 7)] [] = ([(6, 8); (5, 7); (4, 7)], [5; 6]).
Proof.
  split; [|reflexivity]. intros h X. assert (L : forall l a, In a l -> a <= list_max l) by (intros l a H; exact (proj1 (Forall_forall _ _) (proj1 (list_max_le l (list_max l)) (le_n _)) a H)).
  specialize (L _ _ X). lia.
Qed.
Example C131_keys_nonvacuous : weak_order Nat.ltb /\ exact_order Nat.ltb /\ get_keys Nat.ltb [(5, true); (2, false)] = [2; 5].
Proof. split; [exact nat_weak|]. split; [exact nat_exact|reflexivity]. Qed.
