(** Model of py_utils/py_utils/logging/log_utils.py:31-67: a CustomLogger used by one thread.

    - logging.Logger and the handlers of the standard library are modelled after their source
      (CPython 3.11.10, logging/__init__.py), without filters, the attribute disabled, and exceptions
      while writing.
    - A CustomLogger is constructed directly, not by logging.getLogger, so that it has no parent and
      is not in manager.loggerDict.
    - A format is a text; [valid] tells whether logging.Formatter accepts it.  A line of the
      standard error is the format it was written with, the level and the message. *)
From Coq Require Export ZArith.
From Verif Require Export Str.

Definition level := Z.
Definition DEBUG : level := 10%Z.
Definition INFO : level := 20%Z.
Definition WARNING : level := 30%Z.
(** log_utils.py:48 *)
Definition default_format : str := s "[%(asctime)s][%(name)s][%(levelname)s] %(message)s".

Record line := { format : str; severity : level; message : str }.

Record logger := {
  threshold : level;               (* Logger.level *)
  cache : list (level * bool);     (* Logger._cache, newest first *)
  handlers : list str;             (* the formats of Logger.handlers *)
  disable : level }.               (* Logger.manager.disable *)

Inductive op :=
| SetFormat (f : str)          (* log_utils.py:46-53 *)
| SetLogLevel (k : level)      (* :55-59 *)
| ActivateDebug                (* :61-63 *)
| Log (k : level) (m : str)    (* Logger.log, .debug, .info, ...: logging/__init__.py:1544-1559 *)
| IsEnabledFor (k : level)     (* :1734-1754 *)
| DisableAll (k : level).      (* logging.disable(k), :2163-2168 *)

Inductive effect := Nothing | Printed (ls : list line) | Answer (b : bool) | ValueError.

Section Logger.
Variable valid : str -> bool.

Definition lookup (k : level) (l : list (level * bool)) : option bool :=
  match find (fun x => Z.eqb (fst x) k) l with Some x => Some (snd x) | None => None end.

(** Logger.setLevel, logging/__init__.py:1460-1465: manager._clear_cache, :1415-1425, clears the caches
    of the root and of the loggers of loggerDict only *)
Definition set_level (g : logger) (k : level) : logger :=
  {| threshold := k; cache := cache g; handlers := handlers g; disable := disable g |}.
(** logging/__init__.py:596-598 and :435-438 for the format, log_utils.py:50-53 *)
Definition set_format (g : logger) (f : str) : logger * effect :=
  if valid f then ({| threshold := threshold g; cache := cache g; handlers := handlers g ++ [f]; disable := disable g |}, Nothing)
  else (g, ValueError).
(** logging/__init__.py:1734-1754; getEffectiveLevel, :1720-1732, is the level of the logger, also when it is 0 *)
Definition is_enabled_for (g : logger) (k : level) : logger * bool :=
  match lookup k (cache g) with
  | Some b => (g, b)
  | None => let b := if Z.leb k (disable g) then false else Z.leb (threshold g) k in
            ({| threshold := threshold g; cache := (k, b) :: cache g; handlers := handlers g; disable := disable g |}, b)
  end.
(** callHandlers, logging/__init__.py:1690-1710: the level of a StreamHandler is 0 *)
Definition call_handlers (g : logger) (k : level) (m : str) : list line :=
  if Z.leb 0 k then map (fun f => {| format := f; severity := k; message := m |}) (handlers g) else [].

Definition exec (g : logger) (o : op) : logger * effect :=
  match o with
  | SetFormat f => set_format g f
  | SetLogLevel k => (set_level g k, Nothing)
  | ActivateDebug => (set_level g DEBUG, Nothing)
  | Log k m => let (g', b) := is_enabled_for g k in (g', Printed (if b then call_handlers g' k m else []))
  | IsEnabledFor k => let (g', b) := is_enabled_for g k in (g', Answer b)
  | DisableAll k => ({| threshold := threshold g; cache := cache g; handlers := handlers g; disable := k |}, Nothing)
  end.

(** log_utils.py:37-44; the default format is valid *)
Definition construct (k : level) : logger :=
  set_level {| threshold := 0%Z; cache := []; handlers := [default_format]; disable := 0%Z |} k.

Definition after (k : level) (ops : list op) : logger := fold_left (fun g o => fst (exec g o)) ops (construct k).
(** what the operation [o] does after the operations [ops] on a logger constructed with the level [k] *)
Definition effect_after (k : level) (ops : list op) (o : op) : effect := snd (exec (after k ops) o).
End Logger.
