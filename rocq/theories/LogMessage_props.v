(** C133: the messages of logUser, logDebug and logDevError. *)
From Coq Require Import List ZArith.
From Verif Require Import LogMessage_model LogMessage_spec LogMessage_proofs.

(** A message of items between <<, each of them a number or a text whose operators bind tighter than <<, is written
    completely: after the prefix by logDebug and logDevError, and with the end of the line by logUser. *)
Theorem C133_items_partial : forall decimal vars prefix items texts, items <> [] -> Forall2 (item_shows decimal vars) items texts ->
  writes decimal vars (queued_text prefix (message items)) (prefix ++ concat texts) /\ writes decimal vars (printed_text (message items)) (concat texts ++ line_end).
Proof. exact items_lemma. Qed.
Print Assumptions C133_items_partial.

(** If the last item is a conditional expression without parentheses, logDebug and logDevError compile, and write
    its condition instead of its value. *)
Theorem C133_conditional : forall decimal vars prefix items texts a b ea eb ty, items <> [] -> Forall2 (item_shows decimal vars) items texts ->
  reads conditional a ea -> reads conditional b eb -> type_of ea = Some ty -> type_of eb = Some ty -> ty <> Stream -> (forall out, snd (eval decimal vars ea out) = out) ->
  writes decimal vars (queued_text prefix (message items ++ [TQuestion] ++ a ++ [TColon] ++ b)) (prefix ++ concat texts).
Proof. exact conditional_lemma. Qed.
Print Assumptions C133_conditional.

(** A comparison does not compile. *)
Theorem C133_comparison : forall decimal vars prefix items texts i e, items <> [] -> Forall2 (item_shows decimal vars) items texts -> reads shift i e ->
  ~ compiles (queued_text prefix (message items ++ [TLt] ++ i)).
Proof. exact comparison_lemma. Qed.
Print Assumptions C133_comparison.

(** the tokens write one text at most *)
Theorem C133_one_text : forall decimal vars ts t t', writes decimal vars ts t -> writes decimal vars ts t' -> t = t'.
Proof. intros decimal vars ts t t' (e & ty & R & _ & <-) (e' & ty' & R' & _ & <-). rewrite (reads_unique _ _ _ _ R R'). reflexivity. Qed.
Print Assumptions C133_one_text.

Ltac read := match goal with |- reads _ _ _ => exists 20; vm_compute; reflexivity end.

(** logDebug(X, connected ? "yes" : "no") queues "DEBUG: 1" or "DEBUG: 0"; and logDebug(X, n << 2) does not write four times n. *)
Theorem C133_refuted : forall decimal vars,
  writes decimal vars (queued_text (s "DEBUG: ") [TVar 0; TQuestion; TText (s "yes"); TColon; TText (s "no")]) (s "DEBUG: " ++ decimal (vars 0%nat)) /\
  writes decimal vars (queued_text (s "DEBUG: ") [TVar 0; TShl; TNum 2]) (s "DEBUG: " ++ decimal (vars 0%nat) ++ decimal 2%Z).
Proof. intros decimal vars. split; eexists; eexists; (split; [read|split; [reflexivity|reflexivity]]). Qed.
Print Assumptions C133_refuted.

(** "n " << n + 1 << (n < 2 ? "few" : "many") *)
Example C133_nonvacuous : forall decimal, let vars := fun _ => 5%Z in let n := TVar 0 in
  let items := [[TText (s "n ")]; [n; TPlus; TNum 1]; [TOpen; n; TLt; TNum 2; TQuestion; TText (s "few"); TColon; TText (s "many"); TClose]] in
  Forall2 (item_shows decimal vars) items [s "n "; decimal 6%Z; s "many"] /\
  writes decimal vars (queued_text (s "DEBUG: ") (message items)) (s "DEBUG: n " ++ decimal 6%Z ++ s "many").
Proof.
  intros decimal vars n items. split.
  - constructor; [|constructor; [|constructor; [|constructor]]].
    + eexists. split; [read|]. right. split; reflexivity.
    + eexists. split; [read|]. left. split; [reflexivity|]. exists 6%Z. split; reflexivity.
    + eexists. split; [read|]. right. split; reflexivity.
  - eexists. exists Stream. split; [read|]. split; reflexivity.
Qed.
