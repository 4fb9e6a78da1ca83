(** Model of cpp_utils/src/cpp/history/CommandHistoryHandler.cpp. *)
From Coq Require Export ZArith.
From Verif Require Export Str Outcome.
Local Open Scope Z_scope.

(** size_t arithmetic *)
Definition u64 (z : Z) : Z := z mod 2 ^ 64.

(** CommandHistoryHandler.hpp:49-51 *)
Record history := { command_history_ : list str; current_index_ : Z }.

Definition hsize (h : history) : Z := Z.of_nat (length (command_history_ h)).

(** CommandHistoryHandler.cpp:22-25: [current_index_(-1)] *)
Definition history_init : history := {| command_history_ := []; current_index_ := u64 (-1) |}.

(** CommandHistoryHandler.cpp:27-35 *)
Definition add_command (h : history) (command : str) : history :=
  match command with
  | [] => h
  | _ =>
      let l := command_history_ h ++ [command] in
      {| command_history_ := l; current_index_ := Z.of_nat (length l) |}
  end.

(** [command_history_[i]]: undefined out of range *)
Definition hist_at (h : history) : outcome (str * history) :=
  if hsize h <=? current_index_ h then UB
  else match nth_error (command_history_ h) (Z.to_nat (current_index_ h)) with
       | Some c => Ret (c, h)
       | None => UB
       end.

Definition with_index (h : history) (i : Z) : history :=
  {| command_history_ := command_history_ h; current_index_ := i |}.

(** CommandHistoryHandler.cpp:37-45 *)
Definition get_previous_command (h : history) : outcome (str * history) :=
  if negb (hsize h =? 0) && (0 <? current_index_ h)
  then hist_at (with_index h (u64 (current_index_ h - 1)))
  else Ret ([], h).

(** CommandHistoryHandler.cpp:47-60 *)
Definition get_next_command (h : history) : outcome (str * history) :=
  if current_index_ h <? u64 (hsize h - 1)
  then hist_at (with_index h (u64 (current_index_ h + 1)))
  else if current_index_ h =? u64 (hsize h - 1)
  then Ret ([], with_index h (u64 (current_index_ h + 1)))
  else Ret ([], h).

(** calls on a history object; each call's result is observed ([add] returns nothing) *)
Inductive hist_op := HAdd (command : str) | HPrev | HNext.

Definition hist_step (h : history) (o : hist_op) : outcome (option str * history) :=
  match o with
  | HAdd c => Ret (None, add_command h c)
  | HPrev => obind (get_previous_command h) (fun r => Ret (Some (fst r), snd r))
  | HNext => obind (get_next_command h) (fun r => Ret (Some (fst r), snd r))
  end.

Fixpoint hist_run (h : history) (ops : list hist_op) : outcome (list (option str)) :=
  match ops with
  | [] => Ret []
  | o :: rest =>
      obind (hist_step h o) (fun r =>
      obind (hist_run (snd r) rest) (fun outs => Ret (fst r :: outs)))
  end.
