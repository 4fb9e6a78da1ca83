(** Properties C53, C54, C60. *)
From Coq Require Import List Bool Arith NArith.
From Verif Require Import Str Outcome StrUtils_model Printing_model Printing_spec Printing_proofs.
Import ListNotations.

(** *** C53 *)

(** Full statement (false, see below): the same without the assumption. *)
Theorem C53_formatter_partial : forall vals, Forall (fun v => ~ In zero v) vals ->
  fmt_to_string (fold_left fmt_stream vals []) = concat vals.
Proof. exact formatter_lemma. Qed.
Print Assumptions C53_formatter_partial.

Example C53_formatter_partial_nonvacuous :
  Forall (fun v => ~ In zero v) [s "a"; []; s "1.5"] /\
  fmt_to_string (fold_left fmt_stream [s "a"; []; s "1.5"] []) = s "a1.5".
Proof. split; [repeat constructor; cbn; intuition discriminate|reflexivity]. Qed.

(** Everything from the first NUL character on is lost. *)
Theorem C53_formatter_cut : forall vals a b, concat vals = a ++ zero :: b -> ~ In zero a ->
  fmt_to_string (fold_left fmt_stream vals []) = a.
Proof. exact formatter_cut_lemma. Qed.
Print Assumptions C53_formatter_cut.

Theorem C53_formatter_refuted : exists vals, fmt_to_string (fold_left fmt_stream vals []) <> concat vals.
Proof. exact formatter_refute. Qed.
Print Assumptions C53_formatter_refuted.

(** *** C54 *)

(** Every content is that of lines followed by an unfinished, perhaps empty, line. *)
Theorem C54_every_file : forall content, exists lines unfinished,
  content = file_of_lines lines unfinished /\ Forall (fun l => ~ In newline l) lines /\ ~ In newline unfinished.
Proof. exact file_form_lemma. Qed.
Print Assumptions C54_every_file.

(** The lines are returned in order; with the first flag, without their carriage returns;
    with the second, those not then empty. *)
Theorem C54_file_to_strings : forall lines unfinished sc se,
  Forall (fun l => ~ In newline l) lines -> ~ In newline unfinished ->
  file_to_strings (Some (file_of_lines lines unfinished)) sc se =
  Ret (filter (fun l => negb (se && match l with [] => true | _ => false end))
        (map (fun l => if sc then without_carriage_returns l else l) (lines_of lines unfinished))).
Proof. exact file_lines_lemma. Qed.
Print Assumptions C54_file_to_strings.

Example C54_file_to_strings_nonvacuous :
  file_to_strings (Some (file_of_lines [s "a" ++ [carriage_return]; [carriage_return]; []] (s "b"))) true true = Ret [s "a"; s "b"] /\
  file_to_strings (Some (file_of_lines [s "a" ++ [carriage_return]; []] [])) false false = Ret [s "a" ++ [carriage_return]; []].
Proof. split; vm_compute; reflexivity. Qed.

(** Carriage returns inside a line are lost too. *)
Theorem C54_inner_carriage_return_refuted : exists l, ~ In newline l /\
  file_to_strings (Some (l ++ [newline])) true false = Ret [s "ab"] /\ l = s "a" ++ [carriage_return] ++ s "b".
Proof. exact carriage_refute. Qed.
Print Assumptions C54_inner_carriage_return_refuted.

(** As one text, without stripping: the content, the last line finished. *)
Theorem C54_file_to_string : forall content,
  (complete_lines content -> file_to_string (Some content) false = Ret content) /\
  (~ complete_lines content -> file_to_string (Some content) false = Ret (content ++ [newline])).
Proof. exact file_string_lemma. Qed.
Print Assumptions C54_file_to_string.

Example C54_file_to_string_nonvacuous :
  file_to_string (Some (s "a" ++ [newline; newline] ++ s "b")) false = Ret (s "a" ++ [newline; newline] ++ s "b" ++ [newline]).
Proof. vm_compute. reflexivity. Qed.

(** with the carriage returns removed *)
Theorem C54_file_to_string_stripped : forall content,
  (complete_lines content -> file_to_string (Some content) true = Ret (without_carriage_returns content)) /\
  (~ complete_lines content -> file_to_string (Some content) true = Ret (without_carriage_returns content ++ [newline])).
Proof. exact file_stripped_lemma. Qed.
Print Assumptions C54_file_to_string_stripped.

Example C54_file_to_string_stripped_nonvacuous :
  file_to_string (Some (s "a" ++ [carriage_return; newline] ++ s "b" ++ [newline])) true = Ret (s "a" ++ [newline] ++ s "b" ++ [newline]) /\
  file_to_string (Some (s "a" ++ [newline; carriage_return])) true = Ret (s "a" ++ [newline; newline]).
Proof. split; reflexivity. Qed.

Theorem C54_idempotent : forall content sc t, file_to_string (Some content) sc = Ret t -> file_to_string (Some t) sc = Ret t.
Proof. exact file_idempotent_lemma. Qed.
Print Assumptions C54_idempotent.

Theorem C54_missing_file : forall sc se,
  file_to_strings None sc se = Throw PreconditionNotMet /\ file_to_string None sc = Throw PreconditionNotMet.
Proof. exact file_missing_lemma. Qed.
Print Assumptions C54_missing_file.

(** *** C60 *)

Theorem C60_container : forall os l sep, container_to_stream os l sep = os ++ s "{" ++ join sep l ++ s "}".
Proof. exact container_lemma. Qed.
Print Assumptions C60_container.

Example C60_container_nonvacuous : container_to_stream (s "x=") [s "1"; s "2"; s "3"] (s ";") = s "x={1;2;3}".
Proof. reflexivity. Qed.

(** A mask prints as the names of its policies, in order; a mask without policies as Invalid. *)
Theorem C60_mask : forall mask, length mask = length qos_names -> existsb (fun b => b) mask = true ->
  mask_to_string mask = join (s ", ") (chosen mask qos_names).
Proof. exact mask_lemma. Qed.
Print Assumptions C60_mask.

Theorem C60_empty_mask : forall mask, existsb (fun b => b) mask = false -> mask_to_string mask = s "Invalid".
Proof. exact mask_none_lemma. Qed.
Print Assumptions C60_empty_mask.

(** Different masks, not empty, print differently. *)
Theorem C60_mask_injective : forall m m', length m = length qos_names -> length m' = length qos_names ->
  existsb (fun b => b) m = true -> existsb (fun b => b) m' = true -> mask_to_string m = mask_to_string m' -> m = m'.
Proof. exact mask_inj_lemma. Qed.
Print Assumptions C60_mask_injective.

Example C60_mask_nonvacuous :
  mask_to_string ([false; true; true; false; true] ++ repeat false 32) = s "User data, Durability, Deadline" /\
  length ([false; true; true; false; true] ++ repeat false 32) = length qos_names.
Proof. split; vm_compute; reflexivity. Qed.

(** Only the empty mask is not told from the mask of the invalid policy. *)
Theorem C60_invalid_mask_refuted : exists m m', length m = length qos_names /\ length m' = length qos_names /\
  m <> m' /\ mask_to_string m = mask_to_string m'.
Proof. exact mask_ambiguous_refute. Qed.
Print Assumptions C60_invalid_mask_refuted.
