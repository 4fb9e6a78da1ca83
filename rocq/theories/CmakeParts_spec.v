(** Specification of C161: what a user asks for with the options. *)
From Verif Require Import Str CmakeOpt_model.

Definition on (v : vars) (x : str) : Prop := value v x = Some (s "ON").
Definition unsaid (v : vars) (x : str) : Prop := value v x = None.
(** an option that follows another one if it is not given *)
Definition follows (v : vars) (x y : str) : Prop := on v x \/ unsaid v x /\ on v y.
(** the options are not given, or ON or OFF *)
Definition switches : list str := [s "BUILD_TESTS"; s "BUILD_DOCS_TESTS"; s "BUILD_TOOL_TESTS"; s "BUILD_LIBRARY_TESTS"; s "BUILD_ALL"; s "BUILD_DOCS"; s "BUILD_TOOL"; s "BUILD_LIBRARY"].
Definition switched (v : vars) : Prop := forall x t, In x switches -> value v x = Some t -> t = s "ON" \/ t = s "OFF".
