(** Model of cpp_utils/src/cpp/logging/BaseLogConfiguration.cpp, BaseLogConsumer.cpp,
    StdLogConsumer.cpp, event/logging/LogSevereEventHandler.cpp and
    testing/LogChecker.cpp.  The regular expressions and the Fast DDS logger are
    outside: see [regex_search] and [log_entry]. *)
From Verif Require Export Str Outcome Fuzzy_model.
Local Open Scope Z_scope.

(** Log::Kind, in the order of its values *)
Inductive kind := Error | Warning | Info.
Definition kind_value (k : kind) : Z := match k with Error => 0 | Warning => 1 | Info => 2 end.

Definition eqb_kind (a b : kind) : bool := kind_value a =? kind_value b.

(** BaseLogConfiguration.hpp:78-81; [filter] always holds the three kinds *)
Record log_config := { verbosity : fuzzy kind; filter : kind -> fuzzy str }.

(** BaseLogConfiguration.cpp:27-33 *)
Definition log_config_init : log_config :=
  {| verbosity := {| value_ := Warning; level_ := fuzzy_level_default |};
     filter := fun _ => {| value_ := []; level_ := fuzzy_level_default |} |}.

(** BaseLogConfiguration.cpp:41-48 *)
Definition set_verbosity (c : log_config) (v : fuzzy kind) : log_config :=
  if level_ (verbosity c) <=? level_ v then {| verbosity := v; filter := filter c |} else c.

(** one of the three updates of BaseLogConfiguration.cpp:53-66; [None]: [at] throws *)
Definition set_filter_kind (c : log_config) (f : kind -> option (fuzzy str)) (k : kind) : option log_config :=
  match f k with
  | None => None
  | Some x =>
      if level_ (filter c k) <=? level_ x
      then Some {| verbosity := verbosity c; filter := fun k' => if eqb_kind k' k then x else filter c k' |}
      else Some c
  end.

(** BaseLogConfiguration.cpp:50-67: the configuration afterwards and how the call ended.
    A [LogFilter] is a map: [f k = None] when it has no key [k]. *)
Fixpoint set_filter_loop (c : log_config) (f : kind -> option (fuzzy str)) (ks : list kind) : log_config * outcome unit :=
  match ks with
  | [] => (c, Ret tt)
  | k :: rest =>
      match set_filter_kind c f k with
      | None => (c, Throw OutOfRange)
      | Some c' => set_filter_loop c' f rest
      end
  end.
Definition set_filter (c : log_config) (f : kind -> option (fuzzy str)) : log_config * outcome unit :=
  set_filter_loop c f [Error; Warning; Info].

Inductive setting := SetVerbosity (v : fuzzy kind) | SetFilter (f : kind -> option (fuzzy str)).
Definition apply_setting (c : log_config) (x : setting) : log_config :=
  match x with SetVerbosity v => set_verbosity c v | SetFilter f => fst (set_filter c f) end.
Definition configure (l : list setting) : log_config := fold_left apply_setting l log_config_init.

(** a log entry *)
Record entry := { entry_kind : kind; category : str; message : str }.

Section Consumer.
(** [regex_search re t]: whether the expression occurs in [t]; [None]: not a valid expression *)
Variable regex_search : str -> str -> option bool.

(** BaseLogConsumer.cpp:34-47; an invalid expression makes the constructor of std::regex throw *)
Definition accept_entry (c : log_config) (e : entry) : outcome bool :=
  let re := value_ (filter c (entry_kind e)) in
  match regex_search re (category e), regex_search re (message e) with
  | Some in_category, Some in_message =>
      let is_kind_valid := kind_value (entry_kind e) <=? kind_value (value_ (verbosity c)) in
      Ret (is_kind_valid && (in_category || in_message))
  | _, _ => Throw InvalidArgument
  end.
End Consumer.

(** StdLogConsumer.cpp:48-62 *)
Inductive stream := StdErr | StdOut.
Definition get_stream (e : entry) : stream :=
  match entry_kind e with Error | Warning => StdErr | Info => StdOut end.

(** The logger as seen by severe log handlers: its verbosity, and for each handler its
    threshold and the number of entries for which it fired *)
Record logger := { log_verbosity : kind; handlers : list (kind * nat) }.

Definition logger_init : logger := {| log_verbosity := Error; handlers := [] |}.

(** LogSevereEventHandler.cpp:26-37 *)
Definition new_severe_handler (l : logger) (threshold : kind) : logger :=
  {| log_verbosity := if kind_value Error <? kind_value threshold then threshold else log_verbosity l;
     handlers := handlers l ++ [(threshold, 0%nat)] |}.

(** LogSevereEventHandler.cpp:39-46 *)
Definition severe_consume (k : kind) (h : kind * nat) : kind * nat :=
  if kind_value k <=? kind_value (fst h) then (fst h, S (snd h)) else h.

(** an entry written by a thread: the logger drops it when its verbosity is lower (Fast DDS,
    assumed), otherwise every registered consumer gets it *)
Definition log_entry (l : logger) (k : kind) : logger :=
  if kind_value k <=? kind_value (log_verbosity l)
  then {| log_verbosity := log_verbosity l; handlers := map (severe_consume k) (handlers l) |}
  else l.

Inductive log_op := NewHandler (threshold : kind) | Write (k : kind).
Definition log_step (l : logger) (o : log_op) : logger :=
  match o with NewHandler t => new_severe_handler l t | Write k => log_entry l k end.
Definition log_run (ops : list log_op) : logger := fold_left log_step ops logger_init.

(** LogChecker.cpp:26-37 *)
Definition max_severe_logs (expected max : Z) : Z := Z.max max expected.
(** LogChecker.cpp:39-46; the counter is read twice, [count1] then [count2] *)
Definition check_valid (expected max count1 count2 : Z) : bool :=
  (expected <=? count1) && (count2 <=? max_severe_logs expected max).
