(** Vocabulary for the logging properties. *)
From Coq Require Import ZArith List.
From Verif Require Import Fuzzy_model Logging_model.
Local Open Scope Z_scope.

(** [x] is the most recent among the elements of [l] (oldest first) with the highest level *)
Definition strongest_latest {T} (l : list (fuzzy T)) (x : fuzzy T) : Prop :=
  exists older newer, l = older ++ x :: newer /\
    Forall (fun y => level_ y <= level_ x) older /\ Forall (fun y => level_ y < level_ x) newer.

Definition verbosities (l : list setting) : list (fuzzy kind) :=
  flat_map (fun x => match x with SetVerbosity v => [v] | SetFilter _ => [] end) l.

(** the filters given for a kind; a map without errors (then warnings, then infos) is used
    only up to the missing one *)
Definition given (f : kind -> option (fuzzy str)) (k : kind) : list (fuzzy str) :=
  match k, f Error, f Warning, f Info with
  | Error, Some e, _, _ => [e]
  | Warning, Some _, Some w, _ => [w]
  | Info, Some _, Some _, Some i => [i]
  | _, _, _, _ => []
  end.
Definition filters (k : kind) (l : list setting) : list (fuzzy str) :=
  flat_map (fun x => match x with SetVerbosity _ => [] | SetFilter f => given f k end) l.

(** errors are the most severe *)
Definition as_severe_as (a b : kind) : Prop :=
  match a, b with
  | Error, _ => True
  | Warning, (Warning | Info) => True
  | Info, Info => True
  | _, _ => False
  end.

(** an entry written with a severity at or above the threshold *)
Definition counts (threshold : kind) (o : log_op) : bool :=
  match o, threshold with
  | Write Error, _ => true
  | Write Warning, (Warning | Info) => true
  | Write Info, Info => true
  | _, _ => false
  end.
