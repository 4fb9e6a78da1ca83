(** C40: the pool of objects. *)
From Verif Require Import ObjPool_model ObjPool_spec ObjPool_proofs.
From Coq Require Import Permutation.

(** For every type of elements, child class, configuration and sequence of loans, returns and uses:
    the elements on loan are distinct, and so are the free ones; there are no others *)
Theorem C40_distinct : forall T (made : T) cleared k c p out, history made cleared k c p out ->
  NoDup (elements p ++ out) /\ fresh p = length (elements p) + length out.
Proof. exact distinct_lemma. Qed.
Print Assumptions C40_distinct.

(** A loan never fails; it yields an element nobody has, as new, and leaves the others alone *)
Theorem C40_loan : forall T (made : T) cleared k c p out, history made cleared k c p out ->
  exists e p', loan made p = Ret (e, p') /\ ~ In e out /\ as_new made cleared (contents p' e) /\ forall x, In x out -> contents p' x = contents p x.
Proof. exact loan_lemma. Qed.
Print Assumptions C40_loan.

(** With less than 2^32 elements: a return of an element on loan succeeds and resets that element only;
    a return when nothing is on loan is rejected *)
Theorem C40_return_partial : forall T (made : T) cleared k c p out e, history made cleared k c p out ->
  (N.of_nat (length (elements p) + length out) < 2 ^ 32)%N ->
  (In e out -> exists p', return_loan cleared p e = Ret p' /\ as_new made cleared (contents p' e) /\ forall x, x <> e -> contents p' x = contents p x) /\
  (out = [] -> return_loan cleared p e = Throw Inconsistency).
Proof. exact return_lemma. Qed.
Print Assumptions C40_return_partial.

(** Elements are allocated only when needed *)
Theorem C40_allocated : forall T (made : T) cleared k c p out most, peak_history made cleared k c p out most ->
  length out <= most /\
  fresh p <= Nat.max (match k with Base => 0 | Child => N.to_nat (initial_size c) end) (most + N.to_nat (batch_size c) - 1).
Proof. intros T made cleared k c p out most H. exact (proj2 (peak_inv T made cleared k c p out most H)). Qed.
Print Assumptions C40_allocated.

(** If nothing is on loan the destructor deletes every element once *)
Theorem C40_destroy : forall T (made : T) cleared k c p, history made cleared k c p [] -> Permutation (map fst (destroy p)) (seq 0 (fresh p)).
Proof. exact destroy_lemma. Qed.
Print Assumptions C40_destroy.

(** A batch of none is rejected *)
Theorem C40_batch : forall T (made : T) k c g, (exists p, construct made k c g = Ret p) <-> batch_size c <> 0%N.
Proof.
  intros T made k c g. unfold construct. destruct (N.ltb_spec (batch_size c) 1) as [H|H]; split.
  - intros [p E]. discriminate.
  - intros H'. destruct H'. apply N.lt_1_r. exact H.
  - intros _ E. rewrite E in H. apply H. reflexivity.
  - intros _. eexists. reflexivity.
Qed.
Print Assumptions C40_batch.

(** What users see in a pool of three, two at a time *)
Example C40_nonvacuous : exists (p : pool nat) (p' : pool nat), history 5 (fun x => x + 100) Child (small 1 2) p [2; 0] /\ peak_history 5 (fun x => x + 100) Child (small 1 2) p [2; 0] 2 /\
  elements p = [1] /\ contents p 0 = 9 /\ return_loan (fun x => x + 100) p 0 = Ret p' /\ contents p' 0 = 109 /\ elements p' = [0; 1].
Proof.
  destruct (construct 5 Child (small 1 2) (fun _ => 7)) as [p0| | | |] eqn:E0; try (vm_compute in E0; discriminate).
  destruct (loan 5 p0) as [[a p1]| | | |] eqn:E1; try (vm_compute in E0; injection E0 as <-; vm_compute in E1; discriminate).
  destruct (loan 5 (use p1 a 9)) as [[b p2]| | | |] eqn:E2; try (vm_compute in E0; injection E0 as <-; vm_compute in E1; injection E1 as <- <-; vm_compute in E2; discriminate).
  destruct (return_loan (fun x => x + 100) p2 0) as [p3| | | |] eqn:E3;
    try (vm_compute in E0; injection E0 as <-; vm_compute in E1; injection E1 as <- <-; vm_compute in E2; injection E2 as <- <-; vm_compute in E3; discriminate).
  exists p2, p3.
  assert (H : history 5 (fun x => x + 100) Child (small 1 2) p2 [b; a]).
  { eapply h_loan; [|exact E2]. apply h_use; [|left; reflexivity]. eapply h_loan; [|exact E1]. eapply h_start; exact E0. }
  assert (H' : peak_history 5 (fun x => x + 100) Child (small 1 2) p2 [b; a] 2).
  { change 2 with (Nat.max 1 (S (length [a]))) at 3. eapply k_loan; [|exact E2]. apply k_use; [|left; reflexivity]. change 1 with (Nat.max 0 (S (@length nat []))) at 3. eapply k_loan; [|exact E1]. eapply k_start; exact E0. }
  vm_compute in E0; injection E0 as <-; vm_compute in E1; injection E1 as <- <-; vm_compute in E2; injection E2 as <- <-; vm_compute in E3; injection E3 as <-.
  split; [exact H|]. split; [exact H'|]. repeat split.
Qed.

(** A second return of the same element is accepted if another one is on loan; two users get it then *)
Theorem C40_double_return_refuted : exists (p p1 p2 p3 p4 : pool nat) e e', history 0 (fun _ => 0) Child (small 2 1) p [e; e'] /\
  return_loan (fun _ => 0) p e = Ret p1 /\ return_loan (fun _ => 0) p1 e = Ret p2 /\ loan 0 p2 = Ret (e, p3) /\ loan 0 p3 = Ret (e, p4).
Proof. exact double_refute. Qed.
Print Assumptions C40_double_return_refuted.

(** With 2^32 elements on loan no return is accepted *)
Theorem C40_wrap_refuted : exists (p : pool nat) out, history 0 (fun _ => 0) Child (small 1 4294967295) p out /\ N.of_nat (length out) = 4294967296%N /\
  forall e, return_loan (fun _ => 0) p e = Throw Inconsistency.
Proof. exact wrap_refute. Qed.
Print Assumptions C40_wrap_refuted.

(** The destructor does not delete all elements it has reserved: those on loan are lost *)
Theorem C40_leak_refuted : exists (p : pool nat) e, history 0 (fun _ => 0) Child (small 2 1) p [e] /\ fresh p = 2 /\ e < fresh p /\ ~ In e (map fst (destroy p)).
Proof. exact leak_refute. Qed.
Print Assumptions C40_leak_refuted.

(** The class itself ignores the initial size; and whatever class has made the elements, the
    destructor deletes them with the function of the base class *)
Theorem C40_initial_refuted : exists p : pool nat, construct 0 Base (small 5 1) (fun _ => 7) = Ret p /\ elements p = [] /\ fresh p = 0.
Proof. exact initial_refute. Qed.
Print Assumptions C40_initial_refuted.
Theorem C40_delete_refuted : forall T (p : pool T) e k, kind p = Child -> In (e, k) (destroy p) -> k <> kind p.
Proof. intros T p e k K H. unfold destroy in H. apply in_map_iff in H. destruct H as (x & E & _). injection E as _ <-. rewrite K. discriminate. Qed.
Print Assumptions C40_delete_refuted.
