(** C130: the text of exceptions. *)
From Coq Require Import List.
From Verif Require Import Exception_model Exception_proofs.
Import ListNotations.

(** made of a C text, what() is this text, also of a copy; *)
Theorem C130_pointer : forall t rest, ~ In zero t -> exists m, construct (Pointer (Some (t ++ zero :: rest))) = Ret m /\ what m = t /\ what (copy m) = t.
Proof. exact pointer_lemma. Qed.
Print Assumptions C130_pointer.

(** made of a std::string, exactly if there is no NUL in it, otherwise the part before it; *)
Theorem C130_text : forall t, exists m, construct (Text t) = Ret m /\ (what m = t <-> ~ In zero t) /\
  (forall a b, t = a ++ zero :: b -> ~ In zero a -> what m = a).
Proof. exact text_lemma. Qed.
Print Assumptions C130_text.

(** made of what was streamed, in the same way. *)
Theorem C130_streamed : forall vals, exists m, construct (Streamed vals) = Ret m /\ (what m = concat vals <-> ~ In zero (concat vals)) /\
  (forall a b, concat vals = a ++ zero :: b -> ~ In zero a -> what m = a).
Proof. exact streamed_lemma. Qed.
Print Assumptions C130_streamed.

(** A null pointer ends the program, *)
Theorem C130_null_refuted : construct (Pointer None) = Abort.
Proof. reflexivity. Qed.
Print Assumptions C130_null_refuted.
(** and what follows a NUL is lost. *)
Theorem C130_nul_refuted : exists t m, construct (Text t) = Ret m /\ what m = s "bad " /\ what m <> t /\ length t = 9.
Proof. exists (s "bad " ++ [zero] ++ s "byte"), (s "bad " ++ [zero] ++ s "byte"). repeat split. vm_compute. discriminate. Qed.
Print Assumptions C130_nul_refuted.

Example C130_nonvacuous : exists m, construct (Streamed [s "Slot "; s "7"; s " not registered."]) = Ret m /\ what m = s "Slot 7 not registered.".
Proof. eexists. split; [reflexivity|]. vm_compute. reflexivity. Qed.
