(** Specification of C50: the state is the instance, if there is one. *)
From Verif Require Import Singleton_model.

Section Spec.
Variable A : Type.
Variable constructible : option A -> bool.

Inductive single_spec : option (instance A) -> single_op A -> option (instance A) -> single_res A -> Prop :=
| ss_first a i : constructible (Some a) = true -> made_with i = Some a -> single_spec None (Initialize a) (Some i) (RBool true)
| ss_failed a : constructible (Some a) = false -> single_spec None (Initialize a) None RThrown
| ss_later a i : single_spec (Some i) (Initialize a) (Some i) (RBool false)
| ss_get c i : single_spec (Some i) (Get c) (Some i) (RInstance (Some i))
| ss_null : single_spec None (Get false) None (RInstance None)
| ss_created i : constructible None = true -> made_with i = None -> single_spec None (Get true) (Some i) (RInstance (Some i))
| ss_terminate : constructible None = false -> single_spec None (Get true) None RTerminate.

(** [i] has been returned by some call, or has been announced by the effect of one *)
Definition obtained (i : instance A) (evs : list (lev (single_op A) (single_res A))) : Prop :=
  exists t o, In (LRet t o (RInstance (Some i))) evs.
Definition initialized_by (a : A) (t : nat) (evs : list (lev (single_op A) (single_res A))) : Prop :=
  In (LRet t (Initialize a) (RBool true)) evs.

(** the number of calls to initialize that have returned true *)
Fixpoint successes (evs : list (lev (single_op A) (single_res A))) : nat :=
  match evs with
  | LRet _ (Initialize _) (RBool true) :: evs' => S (successes evs')
  | _ :: evs' => successes evs'
  | [] => 0
  end.
End Spec.
Arguments obtained {A} i evs.
Arguments initialized_by {A} a t evs.
Arguments successes {A} evs.
