(** Vocabulary of C139. *)
From Verif Require Import Clock_model.

Inductive kreachable {V} (above reached : V -> bool) (incr decr : V -> V) (allowed : kstate V -> klabel V -> Prop) (k0 : kstate V) : kstate V -> Prop :=
| kr_init : kreachable above reached incr decr allowed k0 k0
| kr_step k l k' : kreachable above reached incr decr allowed k0 k -> allowed k l -> kstep above reached incr decr k l = Some k' ->
    kreachable above reached incr decr allowed k0 k'.

Definition any_time {V} (k : kstate V) (l : klabel V) : Prop := True.
(** the clock is never set forward; never set back *)
Definition not_forward {V} (k : kstate V) (l : klabel V) : Prop := match l with KSet time => time <= now (handler k) | _ => True end.
Definition not_back {V} (k : kstate V) (l : klabel V) : Prop := match l with KSet time => now (handler k) <= time | _ => True end.
