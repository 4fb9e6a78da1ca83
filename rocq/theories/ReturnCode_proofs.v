From Coq Require Import ZArith Lia String List Bool.
From Verif Require Import Outcome ReturnCode_model ReturnCode_spec.
Local Open Scope Z_scope.

Lemma order_lemma : forall a b c : return_code,
  rc_lt a a = false /\ (rc_lt a b = true -> rc_lt b c = true -> rc_lt a c = true) /\
  (rc_lt a b = true \/ rc_eq a b = true \/ rc_lt b a = true) /\
  (rc_eq a b = true <-> a = b) /\ rc_neq a b = negb (rc_eq a b) /\ (rc_lt a b = true -> rc_eq a b = false).
Proof. intros [] [] []; repeat split; cbn; auto; discriminate. Qed.

Lemma same_lemma : forall (a : return_code) v,
  (rc_eq_value a v = true <-> a = rc_of_value v) /\ (value_eq_rc v a = true <-> a = rc_of_value v) /\
  (rc_neq_value a v = true <-> a <> rc_of_value v) /\ (value_neq_rc v a = true <-> a <> rc_of_value v).
Proof. intros [] []; repeat split; cbn; auto; try discriminate; congruence. Qed.

Ltac cases z := unfold rc_of_integer, rc_of_dds, DDS_OK, DDS_ERROR, DDS_UNSUPPORTED, DDS_BAD_PARAMETER, DDS_OUT_OF_RESOURCES, DDS_IMMUTABLE_POLICY,
    DDS_INCONSISTENT_POLICY, DDS_ALREADY_DELETED, DDS_TIMEOUT, DDS_ILLEGAL_OPERATION, DDS_NO_DATA, DDS_NOT_ENABLED, DDS_PRECONDITION_NOT_MET in *;
  destruct (Z.eqb_spec z 0); [subst|destruct (Z.eqb_spec z 1); [subst|destruct (Z.eqb_spec z 2); [subst|destruct (Z.eqb_spec z 3); [subst|
  destruct (Z.eqb_spec z 5); [subst|destruct (Z.eqb_spec z 7); [subst|destruct (Z.eqb_spec z 8); [subst|destruct (Z.eqb_spec z 9); [subst|
  destruct (Z.eqb_spec z 10); [subst|destruct (Z.eqb_spec z 12); [subst|destruct (Z.eqb_spec z 11); [subst|destruct (Z.eqb_spec z 6); [subst|
  destruct (Z.eqb_spec z 4); [subst|]]]]]]]]]]]]]; cbn [orb] in *.

Lemma success_lemma : forall z, (rc_not (rc_of_dds z) = false <-> z = 0) /\ (rc_eq (rc_of_dds z) (rc_of_value RETCODE_OK) = true <-> z = 0) /\
  (rc_eq (rc_of_dds z) (rc_of_value RETCODE_UNKNOWN) = true <-> ~ middleware_code z).
Proof.
  intro z. unfold middleware_code. cases z; cbn; repeat split; intros; try congruence; try lia; auto.
Qed.

Lemma print_lemma : forall c d : return_code, exists p, rc_print c = Ret p /\ (rc_print d = Ret p -> d = c).
Proof. intros [] []; eexists; (split; [reflexivity|]); intro H; try reflexivity; cbv in H; discriminate. Qed.

Lemma named_lemma : forall a b, middleware_code a -> middleware_code b -> named_code a ->
  rc_eq (rc_of_dds a) (rc_of_dds b) = true -> a = b.
Proof.
  intros a b A B N H. unfold named_code in N. unfold middleware_code in *.
  destruct N as [-> | [-> | [-> | ->]]]; revert H; cases b; cbn; intros; try congruence; lia.
Qed.

Lemma faithful_refute :
  (exists a b, middleware_code a /\ middleware_code b /\ a <> b /\ rc_eq (rc_of_dds a) (rc_of_dds b) = true) /\
  (exists a b, named_code a /\ named_code b /\ a < b /\ rc_lt (rc_of_dds b) (rc_of_dds a) = true) /\
  (exists c : return_code, rc_eq (rc_of_integer (rc_number c)) c = false).
Proof.
  split; [exists 1, 10; unfold middleware_code; repeat split; lia|]. split.
  - exists 4, 11. unfold named_code. repeat split; lia.
  - exists RETCODE_UNKNOWN. reflexivity.
Qed.

Lemma table_lemma : forall z, rc_print (rc_of_dds z) = Ret (expected_name z).
Proof.
  intro z. cases z; try reflexivity.
  assert (O : z < 0 \/ 12 < z) by lia. cbn. f_equal. destruct z as [|p|p]; [lia| |reflexivity].
  assert (Q : (12 < p)%positive) by lia. clear - Q. do 4 (destruct p as [p|p|]; try reflexivity; try lia).
Qed.
