(** Lists of threads, used by the transition systems of the thread-safe classes. *)
From Coq Require Export List Bool Arith Lia.
Export ListNotations.

(** the thread [i] becomes [x] *)
Fixpoint upd {A} (l : list A) (i : nat) (x : A) : list A :=
  match l, i with
  | [], _ => []
  | _ :: l', 0 => x :: l'
  | y :: l', S i' => y :: upd l' i' x
  end.

Lemma upd_length {A} (l : list A) i x : length (upd l i x) = length l.
Proof. revert i; induction l as [|y l IH]; intros [|i]; cbn; auto. Qed.

Lemma nth_upd_same {A} (l : list A) i x y : nth_error l i = Some y -> nth_error (upd l i x) i = Some x.
Proof. revert i; induction l as [|z l IH]; intros [|i] H; cbn in *; try discriminate; auto. Qed.

Lemma nth_upd_other {A} (l : list A) i j x : i <> j -> nth_error (upd l i x) j = nth_error l j.
Proof. revert i j; induction l as [|y l IH]; intros [|i] [|j] H; cbn; auto; congruence. Qed.

Lemma nth_upd {A} (l : list A) i j x y : nth_error (upd l i x) j = Some y ->
  (j = i /\ y = x) \/ (j <> i /\ nth_error l j = Some y).
Proof.
  destruct (Nat.eq_dec i j) as [<-|D]; intro H.
  - left. split; [reflexivity|]. destruct (nth_error l i) as [z|] eqn:E.
    + rewrite (nth_upd_same _ _ _ _ E) in H. congruence.
    + apply nth_error_None in E. assert (G : nth_error (upd l i x) i = None) by (apply nth_error_None; rewrite upd_length; exact E). congruence.
  - right. rewrite nth_upd_other in H by exact D. split; [congruence|exact H].
Qed.

Lemma nth_all {A} (x : A) n i y : nth_error (repeat x n) i = Some y -> y = x.
Proof. intro H. apply nth_error_In in H. apply repeat_spec in H. exact H. Qed.

(** number of threads that satisfy [f] *)
Definition number_of {A} (f : A -> nat) (l : list A) : nat := fold_right (fun x n => f x + n) 0 l.

Lemma number_upd {A} (f : A -> nat) l i x y : nth_error l i = Some y ->
  number_of f (upd l i x) + f y = number_of f l + f x.
Proof.
  revert i; induction l as [|z l IH]; intros [|i] H; cbn in *; try discriminate.
  - injection H as <-. lia.
  - specialize (IH _ H). unfold number_of in IH. lia.
Qed.

Lemma number_zero {A} (f : A -> nat) l : number_of f l = 0 <-> forall i x, nth_error l i = Some x -> f x = 0.
Proof.
  induction l as [|y l IH]; cbn.
  - split; [intros _ [|i] x H; discriminate|reflexivity].
  - split.
    + intros H [|i] x Hx; cbn in Hx; [injection Hx as <-; lia|]. apply (proj1 IH) with i; [unfold number_of; lia|exact Hx].
    + intro H. pose proof (H 0 y eq_refl). assert (number_of f l = 0) by (apply IH; intros i x Hx; exact (H (S i) x Hx)). unfold number_of in *. lia.
Qed.

Lemma number_ge {A} (f : A -> nat) l i x : nth_error l i = Some x -> f x <= number_of f l.
Proof.
  revert i; induction l as [|y l IH]; intros [|i] H; cbn in *; try discriminate.
  - injection H as <-. lia.
  - specialize (IH _ H). unfold number_of in IH. lia.
Qed.

Lemma number_two {A} (f : A -> nat) l i j x y : i <> j -> nth_error l i = Some x -> nth_error l j = Some y -> f x + f y <= number_of f l.
Proof.
  revert i j; induction l as [|z l IH]; intros [|i] [|j] D Hx Hy; cbn in *; try discriminate; try congruence.
  - injection Hx as <-. pose proof (number_ge f _ _ _ Hy) as G. unfold number_of in *. lia.
  - injection Hy as <-. pose proof (number_ge f _ _ _ Hx) as G. unfold number_of in *. lia.
  - assert (i <> j) by congruence. specialize (IH _ _ H Hx Hy). unfold number_of in *. lia.
Qed.

Lemma number_repeat {A} (f : A -> nat) x n : f x = 0 -> number_of f (repeat x n) = 0.
Proof. intro H. induction n; cbn; [reflexivity|]. unfold number_of in *. lia. Qed.
Arguments number_of {A} f l : simpl never.
