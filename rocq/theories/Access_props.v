(** Property C136. *)
From Verif Require Import Access_model Access_spec Access_proofs.
Local Open Scope Z_scope.

(** Modes composed with | in any number and order: the answer is yes if and only if the file exists and the process may
    do everything that one of the modes asks for. *)
Theorem C136_accessible : forall file ms, is_file_accessible file (all_of ms) = true <->
  exists p, file = Some p /\ forall m r, In m ms -> asks m r -> granted p r = true.
Proof. exact accessible_lemma. Qed.
Print Assumptions C136_accessible.

Example C136_accessible_nonvacuous :
  let p := {| may_read := true; may_write := true; may_exec := false |} in
  is_file_accessible (Some p) (all_of [Read; Exist; ReadWrite]) = true /\ is_file_accessible (Some p) (all_of [Read; WriteExec]) = false /\
  is_file_accessible None (all_of []) = false /\ is_file_accessible (Some p) (all_of []) = true.
Proof. repeat split. Qed.

(** A mode is found with & in a composition if and only if the composition asks for everything that it asks for. *)
Theorem C136_contains : forall ms m, mode_and (all_of ms) (value m) = value m <-> forall r, asks m r -> exists m', In m' ms /\ asks m' r.
Proof. exact contains_lemma. Qed.
Print Assumptions C136_contains.

Example C136_contains_nonvacuous : mode_and (all_of [Read; Exec]) (value ReadExec) = value ReadExec /\ mode_and (all_of [Read; Exec]) (value ReadWrite) <> value ReadWrite.
Proof. split; [reflexivity|discriminate]. Qed.
