(** Vocabulary of C136. *)
From Verif Require Import Access_model.

(** the names of the enumeration, and what each asks for *)
Inductive mode := Exist | Read | Write | Exec | ReadWrite | ReadExec | ReadWriteExec | WriteExec.
Definition value (m : mode) : Z :=
  match m with
  | Exist => exist | Read => read | Write => write | Exec => exec
  | ReadWrite => read_write | ReadExec => read_exec | ReadWriteExec => read_write_exec | WriteExec => write_exec
  end.
Inductive right := RightRead | RightWrite | RightExec.
Definition asks (m : mode) (r : right) : Prop :=
  match r, m with
  | RightRead, (Read | ReadWrite | ReadExec | ReadWriteExec) => True
  | RightWrite, (Write | ReadWrite | ReadWriteExec | WriteExec) => True
  | RightExec, (Exec | ReadExec | ReadWriteExec | WriteExec) => True
  | _, _ => False
  end.
Definition granted (p : permissions) (r : right) : bool :=
  match r with RightRead => may_read p | RightWrite => may_write p | RightExec => may_exec p end.
(** the composition of modes with | *)
Definition all_of (ms : list mode) : Z := fold_left (fun a m => mode_or a (value m)) ms exist.
