(** C51: return codes. *)
From Coq Require Import ZArith String.
From Verif Require Import Outcome ReturnCode_model ReturnCode_spec ReturnCode_proofs.
Local Open Scope Z_scope.

(** a strict total order, compatible with the equalities *)
Theorem C51_order : forall a b c : return_code,
  rc_lt a a = false /\ (rc_lt a b = true -> rc_lt b c = true -> rc_lt a c = true) /\
  (rc_lt a b = true \/ rc_eq a b = true \/ rc_lt b a = true) /\
  (rc_eq a b = true <-> a = b) /\ rc_neq a b = negb (rc_eq a b) /\ (rc_lt a b = true -> rc_eq a b = false).
Proof. exact order_lemma. Qed.
Print Assumptions C51_order.

Example C51_order_nonvacuous : rc_lt RETCODE_OK RETCODE_NO_DATA = true /\ rc_lt RETCODE_NO_DATA RETCODE_NOT_ENABLED = true.
Proof. split; reflexivity. Qed.

(** comparisons with values of the enumeration, on either side *)
Theorem C51_same : forall (a : return_code) v,
  (rc_eq_value a v = true <-> a = rc_of_value v) /\ (value_eq_rc v a = true <-> a = rc_of_value v) /\
  (rc_neq_value a v = true <-> a <> rc_of_value v) /\ (value_neq_rc v a = true <-> a <> rc_of_value v).
Proof. exact same_lemma. Qed.
Print Assumptions C51_same.

(** success is exactly OK; an unknown code is exactly one the standard does not define *)
Theorem C51_success : forall z, (rc_not (rc_of_dds z) = false <-> z = 0) /\ (rc_eq (rc_of_dds z) (rc_of_value RETCODE_OK) = true <-> z = 0) /\
  (rc_eq (rc_of_dds z) (rc_of_value RETCODE_UNKNOWN) = true <-> ~ middleware_code z).
Proof. exact success_lemma. Qed.
Print Assumptions C51_success.

Example C51_success_nonvacuous : rc_not (rc_of_dds 10) = true /\ rc_of_dds (-1) = RETCODE_UNKNOWN /\ rc_not rc_default = false.
Proof. repeat split. Qed.

(** every code prints a name of its own: the assertion never fails *)
Theorem C51_print : forall c d : return_code, exists p, rc_print c = Ret p /\ (rc_print d = Ret p -> d = c).
Proof. exact print_lemma. Qed.
Print Assumptions C51_print.

Example C51_print_nonvacuous : rc_print (rc_of_dds DDS_NO_DATA) = Ret "{NoData}"%string.
Proof. reflexivity. Qed.

(** every code of the middleware prints the name of what it becomes *)
Theorem C51_table : forall z, rc_print (rc_of_dds z) = Ret (expected_name z).
Proof. exact table_lemma. Qed.
Print Assumptions C51_table.

Example C51_table_nonvacuous : rc_print (rc_of_dds 6) = Ret "{NotEnabled}"%string /\ rc_print (rc_of_dds 10) = Ret "{Error}"%string /\ rc_print (rc_of_dds 13) = Ret "{Unknown}"%string.
Proof. repeat split. Qed.

(** codes of the middleware: what is missing is that nine of the thirteen become the same one,
    and that the order changes *)
Theorem C51_faithful_partial : forall a b, middleware_code a -> middleware_code b -> named_code a ->
  rc_eq (rc_of_dds a) (rc_of_dds b) = true -> a = b.
Proof. exact named_lemma. Qed.
Print Assumptions C51_faithful_partial.

Example C51_faithful_partial_nonvacuous : middleware_code 6 /\ named_code 6 /\ rc_eq (rc_of_dds 6) (rc_of_dds 6) = true.
Proof. unfold middleware_code, named_code. repeat split; auto; discriminate. Qed.

(** two codes of the middleware become equal; two change their order; a code is not the one built
    from its own number *)
Theorem C51_faithful_refuted :
  (exists a b, middleware_code a /\ middleware_code b /\ a <> b /\ rc_eq (rc_of_dds a) (rc_of_dds b) = true) /\
  (exists a b, named_code a /\ named_code b /\ a < b /\ rc_lt (rc_of_dds b) (rc_of_dds a) = true) /\
  (exists c : return_code, rc_eq (rc_of_integer (rc_number c)) c = false).
Proof. exact faithful_refute. Qed.
Print Assumptions C51_faithful_refuted.
