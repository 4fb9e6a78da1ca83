(** A command history as a text with a cursor between commands: [older], most
    recent first, stands before the cursor, [newer] after it.  The selected
    command is the first of [newer]; nothing is selected at the newest end. *)
From Verif Require Import Str History_model.

Record browser := { older : list str; newer : list str }.

Definition browser_init : browser := {| older := []; newer := [] |}.

Definition selected (b : browser) : str := match newer b with c :: _ => c | [] => [] end.

Definition browser_step (b : browser) (o : hist_op) : option str * browser :=
  match o with
  | HAdd [] => (None, b)
  | HAdd c => (None, {| older := c :: rev (newer b) ++ older b; newer := [] |})
  | HPrev =>
      match older b with
      | [] => (Some [], b)
      | c :: o' => (Some c, {| older := o'; newer := c :: newer b |})
      end
  | HNext =>
      match newer b with
      | [] => (Some [], b)
      | c :: n' => let b' := {| older := c :: older b; newer := n' |} in (Some (selected b'), b')
      end
  end.

Fixpoint browser_run (b : browser) (ops : list hist_op) : list (option str) :=
  match ops with
  | [] => []
  | o :: rest => let r := browser_step b o in fst r :: browser_run (snd r) rest
  end.

(** number of [get_next_command] calls before the first non-empty command is added *)
Fixpoint early_nexts (ops : list hist_op) : nat :=
  match ops with
  | [] => 0
  | HAdd (_ :: _) :: _ => 0
  | HNext :: rest => S (early_nexts rest)
  | _ :: rest => early_nexts rest
  end.
