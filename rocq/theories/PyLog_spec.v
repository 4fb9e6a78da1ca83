(** Vocabulary of C105 and C106: what was set before. *)
From Verif Require Export PyLog_model.

Section Spec.
Variable valid : str -> bool.

(** the formats set, oldest first, with the one of the constructor *)
Definition formats (ops : list op) : list str :=
  default_format :: flat_map (fun o => match o with SetFormat f => if valid f then [f] else [] | _ => [] end) ops.
End Spec.

(** the level set last *)
Definition last_level (k : level) (ops : list op) : level :=
  fold_left (fun l o => match o with SetLogLevel j => j | ActivateDebug => DEBUG | _ => l end) ops k.
(** the level given to logging.disable last *)
Definition last_disable (ops : list op) : level :=
  fold_left (fun l o => match o with DisableAll j => j | _ => l end) ops 0%Z.

(** the settings after [ops] let messages of level [j] pass *)
Definition allows (k : level) (ops : list op) (j : level) : Prop := (last_level k ops <= j /\ last_disable ops < j)%Z.

Definition uses (j : level) (o : op) : Prop := (exists m, o = Log j m) \/ o = IsEnabledFor j.
(** [first] is the part of [ops] before the level [j] is used for the first time *)
Definition before_first_use (j : level) (ops first : list op) : Prop :=
  Forall (fun o => ~ uses j o) first /\ (ops = first \/ exists o rest, ops = first ++ o :: rest /\ uses j o).

Definition prints (valid : str -> bool) (k : level) (ops : list op) (j : level) (m : str) (ls : list line) : Prop :=
  effect_after valid k ops (Log j m) = Printed ls.
