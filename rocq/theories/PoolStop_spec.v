(** Vocabulary of C69. *)
From Coq Require Import List.
From Verif Require Import Pool_model Pool_spec.

(** only the thread [c] calls enable and disable *)
Definition controlled_by (c : nat) (l : plabel) : Prop :=
  match l with PCall t Enable | PCall t Disable => t = c | _ => True end.

Definition no_enable (l : plabel) : Prop := match l with PCall _ Enable => False | _ => True end.

(** no thread of the pool is alive *)
Definition all_ended (s : pstate) : Prop := forall t g, nth_error (pstages s) t = Some g -> pool_thread g = false.
