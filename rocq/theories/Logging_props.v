(** Properties C24, C52, C59. *)
From Coq Require Import ZArith List Bool.
From Verif Require Import Str Outcome Fuzzy_model Logging_model Logging_spec Logging_proofs.
Local Open Scope Z_scope.

(** *** C24 *)

(** After any settings, the verbosity is the most recent one of the highest level, the
    default (Warning, level 0) included. *)
Theorem C24_verbosity : forall l,
  strongest_latest ({| value_ := Warning; level_ := 0 |} :: verbosities l) (verbosity (configure l)).
Proof. exact verbosity_lemma. Qed.
Print Assumptions C24_verbosity.

Example C24_verbosity_nonvacuous :
  verbosity (configure [SetVerbosity {| value_ := Error; level_ := 40 |}; SetFilter (fun _ => None);
                        SetVerbosity {| value_ := Info; level_ := 40 |}; SetVerbosity {| value_ := Warning; level_ := 20 |}])
  = {| value_ := Info; level_ := 40 |}.
Proof. reflexivity. Qed.

(** The same for the filter of each kind. *)
Theorem C24_filter : forall k l,
  strongest_latest ({| value_ := []; level_ := 0 |} :: filters k l) (filter (configure l) k).
Proof. exact filter_lemma. Qed.
Print Assumptions C24_filter.

Example C24_filter_nonvacuous :
  value_ (filter (configure [SetFilter (fun _ => Some {| value_ := s "a"; level_ := 40 |});
                             SetFilter (fun _ => Some {| value_ := s "b"; level_ := 20 |})]) Info) = s "a".
Proof. reflexivity. Qed.

(** "Most recent of the highest level" names one setting. *)
Theorem C24_unique : forall (T : Type) (l : list (fuzzy T)) x y,
  strongest_latest l x -> strongest_latest l y -> x = y.
Proof. exact @strongest_unique. Qed.
Print Assumptions C24_unique.

(** A filter without one of the kinds is rejected by an exception after part of it was
    taken over. *)
Theorem C24_all_or_nothing_refuted : exists f c', set_filter log_config_init f = (c', Throw OutOfRange) /\
  filter c' Error <> filter log_config_init Error.
Proof. exact partial_update_lemma. Qed.
Print Assumptions C24_all_or_nothing_refuted.

(** *** C52 *)

(** [rs] stands for the regular expression search; valid filter expressions. *)
Theorem C52_accept : forall rs c e in_category in_message,
  rs (value_ (filter c (entry_kind e))) (category e) = Some in_category ->
  rs (value_ (filter c (entry_kind e))) (message e) = Some in_message ->
  exists b, accept_entry rs c e = Ret b /\
    (b = true <-> as_severe_as (entry_kind e) (value_ (verbosity c)) /\ (in_category = true \/ in_message = true)).
Proof. exact accept_lemma. Qed.
Print Assumptions C52_accept.

Example C52_accept_nonvacuous :
  let rs re t := Some (match sfind re t with Some _ => true | None => false end) in
  accept_entry rs log_config_init {| entry_kind := Warning; category := s "net"; message := s "lost" |} = Ret true /\
  accept_entry rs log_config_init {| entry_kind := Info; category := s "net"; message := s "lost" |} = Ret false.
Proof. split; reflexivity. Qed.

(** An invalid filter expression makes the logging thread throw, also for entries the
    verbosity would discard. *)
Theorem C52_invalid_filter : forall rs c e,
  (forall t, rs (value_ (filter c (entry_kind e))) t = None) -> accept_entry rs c e = Throw InvalidArgument.
Proof. exact invalid_filter_lemma. Qed.
Print Assumptions C52_invalid_filter.

Theorem C52_stream : forall e, get_stream e = StdErr <-> as_severe_as (entry_kind e) Warning.
Proof. exact stream_lemma. Qed.
Print Assumptions C52_stream.

(** A severe log handler fires for exactly the entries at or above its threshold written
    after its creation, as long as no handler of a more severe threshold (other than Error)
    is created. *)
Theorem C52_severe_handler_partial : forall before threshold ops,
  (forall t, In (NewHandler t) ops -> t = Error \/ as_severe_as threshold t) ->
  nth_error (handlers (log_run (before ++ NewHandler threshold :: ops))) (length (handlers (log_run before))) =
  Some (threshold, length (List.filter (counts threshold) ops)).
Proof. exact severe_lemma. Qed.
Print Assumptions C52_severe_handler_partial.

Example C52_severe_handler_partial_nonvacuous :
  handlers (log_run [NewHandler Error; NewHandler Warning; Write Info; Write Error; NewHandler Info; Write Warning]) =
  [(Error, 1%nat); (Warning, 2%nat); (Info, 1%nat)].
Proof. reflexivity. Qed.

(** Otherwise it loses entries: a second handler lowers the verbosity of the whole logger. *)
Theorem C52_two_handlers_refuted : exists ops n1 n2,
  ops = [NewHandler Info; NewHandler Warning; Write Info] /\
  handlers (log_run ops) = [(Info, n1); (Warning, n2)] /\ n1 = 0%nat.
Proof. exact two_handlers_lemma. Qed.
Print Assumptions C52_two_handlers_refuted.

(** *** C59 *)

Theorem C59_bounds : forall expected max count,
  check_valid expected max count count = true <-> expected <= count <= Z.max max expected.
Proof. exact check_lemma. Qed.
Print Assumptions C59_bounds.

Example C59_bounds_nonvacuous :
  check_valid 2 0 2 2 = true /\ check_valid 2 0 3 3 = false /\ check_valid 1 4 4 4 = true /\ check_valid 1 4 0 0 = false.
Proof. repeat split. Qed.

(** Entries may arrive between the two readings of the counter. *)
Theorem C59_growing_count : forall expected max count1 count2, count1 <= count2 ->
  check_valid expected max count1 count2 = true -> expected <= count2 <= Z.max max expected.
Proof. exact check_two_reads. Qed.
Print Assumptions C59_growing_count.

Example C59_growing_count_nonvacuous : check_valid 1 4 2 4 = true.
Proof. reflexivity. Qed.
