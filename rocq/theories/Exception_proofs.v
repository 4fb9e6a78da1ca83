(** Proofs of C130. *)
From Coq Require Import List Ascii Bool.
From Verif Require Import Exception_model Printing_spec Printing_proofs.
Import ListNotations.

Lemma c_str_whole t : ~ In zero t -> c_str t = t.
Proof.
  induction t as [|c t IH]; intros N; [reflexivity|]. cbn [c_str]. destruct (Ascii.eqb_spec c zero) as [->|D]; [exfalso; apply N; left; reflexivity|].
  rewrite IH; [reflexivity|]. intros X. apply N. right. exact X.
Qed.
Lemma c_str_cut a b : ~ In zero a -> c_str (a ++ zero :: b) = a.
Proof.
  induction a as [|c a IH]; intros N; [reflexivity|]. cbn [c_str app]. destruct (Ascii.eqb_spec c zero) as [->|D]; [exfalso; apply N; left; reflexivity|].
  rewrite IH; [reflexivity|]. intros X. apply N. right. exact X.
Qed.
Lemma c_str_none t : ~ In zero (c_str t).
Proof.
  induction t as [|c t IH]; [intros []|]. cbn [c_str]. destruct (Ascii.eqb_spec c zero) as [->|D]; [intros []|]. intros [X|X]; [congruence|exact (IH X)].
Qed.

Lemma pointer_lemma : forall t rest, ~ In zero t -> exists m, construct (Pointer (Some (t ++ zero :: rest))) = Ret m /\ what m = t /\ what (copy m) = t.
Proof.
  intros t rest N. exists t. cbn [construct]. assert (X : existsb (Ascii.eqb zero) (t ++ zero :: rest) = true).
  { apply existsb_exists. exists zero. split; [apply in_or_app; right; left; reflexivity|apply Ascii.eqb_refl]. }
  rewrite X, (c_str_cut _ _ N). unfold what, copy. rewrite (c_str_whole _ N). auto.
Qed.
Lemma text_lemma : forall t, exists m, construct (Text t) = Ret m /\ (what m = t <-> ~ In zero t) /\
  (forall a b, t = a ++ zero :: b -> ~ In zero a -> what m = a).
Proof.
  intros t. exists t. split; [reflexivity|]. unfold what. split; [split|].
  - intros H. rewrite <- H. apply c_str_none.
  - apply c_str_whole.
  - intros a b -> N. exact (c_str_cut _ _ N).
Qed.
Lemma streamed_lemma : forall vals, exists m, construct (Streamed vals) = Ret m /\ (what m = concat vals <-> ~ In zero (concat vals)) /\
  (forall a b, concat vals = a ++ zero :: b -> ~ In zero a -> what m = a).
Proof.
  intros vals. eexists. split; [reflexivity|]. unfold what.
  assert (E : forall v0 , fold_left fmt_stream vals v0 = v0 ++ concat vals).
  { induction vals as [|v vals IH]; intros v0; cbn [fold_left concat]; [rewrite app_nil_r; reflexivity|]. rewrite IH. unfold fmt_stream. rewrite app_assoc. reflexivity. }
  unfold fmt_to_string. rewrite (E []). cbn [app]. rewrite (c_str_whole (c_str (concat vals))) by apply c_str_none. split; [split|].
  - intros H. rewrite <- H. apply c_str_none.
  - apply c_str_whole.
  - intros a b -> N. exact (c_str_cut _ _ N).
Qed.
