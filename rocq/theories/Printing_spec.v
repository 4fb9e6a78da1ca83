(** Vocabulary for printed text and files. *)
From Verif Require Export Str_spec.
From Verif Require Import Str StrUtils_model.

(** the members of a list at the positions set in a mask *)
Fixpoint chosen {A} (mask : list bool) (names : list A) : list A :=
  match mask, names with
  | b :: mask', n :: names' => (if b then [n] else []) ++ chosen mask' names'
  | _, _ => []
  end.

(** the file made of the given lines, each ended by a newline, and then of an unfinished one *)
Definition file_of_lines (lines : list str) (unfinished : str) : str :=
  concat (map (fun l => l ++ [newline]) lines) ++ unfinished.

(** its lines: the unfinished one counts unless it is empty *)
Definition lines_of (lines : list str) (unfinished : str) : list str :=
  lines ++ match unfinished with [] => [] | _ => [unfinished] end.

Definition without_carriage_returns (l : str) : str :=
  filter (fun x => negb (Ascii.eqb x carriage_return)) l.

(** empty, or ended by a newline *)
Definition complete_lines (t : str) : Prop := t = [] \/ exists u, t = u ++ [newline].
