(** Vocabulary of C132. *)
From Verif Require Import LogMacro_model.

(** the tokens are a sequence of statements, these ones *)
Definition program (ts : list token) (p : stmt) : Prop := exists n, parse n Many ts = Some (p, []).
Definition well_formed (ts : list token) : Prop := exists p, program ts p.
(** written by the programmer: no expressions of the macros *)
Definition written (t : token) : Prop :=
  match t with TDo (AOther _) | TDo (AUse _ _) | TSemi | TOpen | TClose | TElse | TIf (COther _) => True | _ => False end.
(** [use ; else], of a macro that is not nothing in this build *)
Definition use_before_else (b : build) (ts : list token) : Prop :=
  exists a m u r, ts = a ++ [TDo (AUse m u); TSemi; TElse] ++ r /\ (m = LogUser \/ b <> Nothing).

(** what a use does, if uses were calls of functions *)
Definition log_entry_call {W} (w : world W) (prefix : str) (k : kind) (u : nat) (x : W) : W :=
  match verbosity_of w x with Info => let (t, x1) := evaluate w u x in queue w k (prefix ++ t) x1 | _ => x end.
Definition call {W} (w : world W) (b : build) (m : macro) (u : nat) (x : W) : W :=
  match m, b with
  | LogUser, _ => let (t, x1) := evaluate w u x in print w t x1
  | LogDebug, Queueing => log_entry_call w (s "DEBUG: ") Info u x
  | LogDevError, Queueing => log_entry_call w (s "DEV_WARNING: ") Warning u x
  | _, _ => x
  end.
(** the program with those calls *)
Definition intended {W} (w : world W) (b : build) (p : stmt) (x : W) : W :=
  exec (fun a x => match a with AOther n => other w n x | AUse m u => call w b m u x | _ => x end)
       (fun c x => match c with COther n => decide w n x | CVerbosity _ => (false, x) end) p x.
(** what happens when the program is executed *)
Definition executed {W} (w : world W) (p : stmt) (x : W) : W := fst (exec (act w) (test w) p (x, [])).
