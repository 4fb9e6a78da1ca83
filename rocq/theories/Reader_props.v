(** Property C21. *)
From Verif Require Import Str Reader_model Reader_spec Reader_proofs.

(** Partial: arguments that do not start with a space.  Arguments without double quotes,
    with spaces only between quotes. *)
Theorem C21_read_back_partial : forall args, args <> [] -> Forall writable args ->
  Forall (fun a => ~ leading_space a) args ->
  read_arguments (write_line args) = Some (map value args).
Proof. exact read_back_lemma. Qed.
Print Assumptions C21_read_back_partial.

Definition sample_arguments : list argument :=
  [{| quoted := false; value := s "send" |}; {| quoted := true; value := s "hello  big world " |};
   {| quoted := true; value := [] |}; {| quoted := false; value := [] |}; {| quoted := true; value := s "x" |}].
Example C21_read_back_partial_nonvacuous :
  Forall writable sample_arguments /\ Forall (fun a => ~ leading_space a) sample_arguments /\
  length (write_line sample_arguments) = 32 /\
  read_arguments (write_line sample_arguments) = Some [s "send"; s "hello  big world "; []; []; s "x"].
Proof.
  split; [unfold sample_arguments, writable; repeat (apply Forall_cons; [cbn; intuition discriminate|]); apply Forall_nil|].
  split; [|split; vm_compute; reflexivity].
  unfold sample_arguments. repeat (apply Forall_cons; [intros [_ [t E]]; discriminate|]); apply Forall_nil.
Qed.

(** The full claim fails for a quoted argument that starts with a space, *)
Theorem C21_leading_space_refuted : exists a, writable a /\ leading_space a /\
  read_arguments (write_line [a]) <> Some [value a].
Proof. exact leading_space_lemma. Qed.
Print Assumptions C21_leading_space_refuted.

(** whatever it is: its opening quote is taken for an empty argument. *)
Theorem C21_leading_space_always : forall v, ~ In dquote v -> exists rest,
  read_arguments (write_line [{| quoted := true; value := blank :: v |}]) = Some ([] :: rest).
Proof. exact leading_space_always. Qed.
Print Assumptions C21_leading_space_always.

Example C21_leading_space_always_nonvacuous :
  ~ In dquote (s "a b") /\
  read_arguments (write_line [{| quoted := true; value := blank :: s "a b" |}]) = Some [[]; s "a"; s "b" ++ [dquote]].
Proof. split; [cbn; intuition discriminate|vm_compute; reflexivity]. Qed.

(** The command name is always there: every line, even the empty one, has a first argument. *)
Theorem C21_some_argument : forall line, exists first rest, read_arguments line = Some (first :: rest).
Proof. exact some_argument_lemma. Qed.
Print Assumptions C21_some_argument.

Example C21_some_argument_nonvacuous :
  read_arguments [] = Some [[]] /\ read_arguments (dquote :: s "a b") = Some [s "a b"].
Proof. split; vm_compute; reflexivity. Qed.
