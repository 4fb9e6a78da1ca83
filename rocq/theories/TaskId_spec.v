(** Vocabulary of C56. *)
From Verif Require Import TaskId_model.
Local Open Scope N_scope.

(** the identifiers returned, the newest first *)
Fixpoint returned (evs : list (lev id_op N)) : list N :=
  match evs with
  | LRet _ _ r :: evs' => r :: returned evs'
  | _ :: evs' => returned evs'
  | [] => []
  end.

(** the number of calls made *)
Fixpoint calls (evs : list (lev id_op N)) : nat :=
  match evs with
  | LCall _ _ :: evs' => S (calls evs')
  | _ :: evs' => calls evs'
  | [] => O
  end.

(** one call at a time: it returns the number of the next one *)
Definition next_id (c : N) (o : id_op) (c' r : N) : Prop := r = c /\ c' = (c + 1) mod 2 ^ 32.
