(** Property C20. *)
From Coq Require Import ZArith.
From Verif Require Import Str Outcome History_model Editor_model Editor_spec Editor_proofs.
Local Open Scope Z_scope.

(** Every byte sequence, well formed or not: when the editor survives it, the cursor is
    inside the line. *)
Theorem C20_cursor_inside : forall evs ls e, editor_run editor_init evs = Ret (ls, e) ->
  (cursor_index e <= length (read_str e))%nat.
Proof. exact cursor_inside_lemma. Qed.
Print Assumptions C20_cursor_inside.

Example C20_cursor_inside_nonvacuous : exists e,
  editor_run editor_init (press (s "abc" ++ esc "[D" ++ esc "[7" ++ s "x") 80) = Ret ([], e) /\
  read_str e = s "abxc" /\ cursor_index e = 3%nat.
Proof. eexists. split; [vm_compute; reflexivity|split; reflexivity]. Qed.

(** Keys typed on a terminal of positive width deliver the same lines, and leave the
    same text and cursor, as a text with a cursor and a browsable history.  [None] in the
    reference: history forward was pressed a second time while no command is stored; the
    program then reads outside its history. *)
Theorem C20_editor_partial : forall ks evs, typing ks evs -> Z.of_nat (length ks) < 2 ^ 63 ->
  match desk_run desk_init ks with
  | None => editor_run editor_init evs = UB
  | Some (ls, d) => exists e, editor_run editor_init evs = Ret (ls, e) /\
                              read_str e = text d /\ cursor_index e = length (before d)
  end.
Proof. exact editor_lemma. Qed.
Print Assumptions C20_editor_partial.

Definition sample_keys : list key :=
  [KChar "a"; KChar "c"; KLeft; KChar "b"; KEnter false; KChar "x"; KPrevious; KHome; KDelete; KEnd; KBackspace;
   KEnter true; KNext; KCtrlC].
Example C20_editor_partial_nonvacuous :
  option_map fst (desk_run desk_init sample_keys) = Some [s "abc"; s "b"; []] /\
  typing sample_keys
    (press (s "ac" ++ esc "[D" ++ s "b") 80 ++ press [ascii_of_nat 10] 80 ++
     press (s "x" ++ esc "[5~" ++ esc "[H" ++ esc "[3~" ++ esc "[F" ++ [ascii_of_nat 127]) 80 ++
     [{| ch := ascii_of_nat 13; width := 80; ignoring := true |}] ++ press (esc "[B" ++ [ascii_of_nat 3]) 80).
Proof.
  split; [vm_compute; reflexivity|]. unfold sample_keys.
  pose (ev := fun b => press b 80).
  eapply (tg_cons (KChar "a") _ _ (ev (s "a"))); [apply ty_char; cbn; intuition discriminate|reflexivity|repeat constructor|discriminate|].
  eapply (tg_cons (KChar "c") _ _ (ev (s "c"))); [apply ty_char; cbn; intuition discriminate|reflexivity|repeat constructor|discriminate|].
  eapply (tg_cons KLeft _ _ (ev (esc "[D"))); [apply ty_left|reflexivity|repeat constructor|discriminate|].
  eapply (tg_cons (KChar "b") _ _ (ev (s "b"))); [apply ty_char; cbn; intuition discriminate|reflexivity|repeat constructor|discriminate|].
  eapply (tg_cons (KEnter false) _ _ (ev [ascii_of_nat 10])); [apply (ty_enter (ascii_of_nat 10)); cbn; tauto|reflexivity|repeat constructor|intros ig E; injection E as <-; repeat constructor|].
  eapply (tg_cons (KChar "x") _ _ (ev (s "x"))); [apply ty_char; cbn; intuition discriminate|reflexivity|repeat constructor|discriminate|].
  eapply (tg_cons KPrevious _ _ (ev (esc "[5~"))); [apply ty_pgup|reflexivity|repeat constructor|discriminate|].
  eapply (tg_cons KHome _ _ (ev (esc "[H"))); [apply ty_home|reflexivity|repeat constructor|discriminate|].
  eapply (tg_cons KDelete _ _ (ev (esc "[3~"))); [apply ty_delete|reflexivity|repeat constructor|discriminate|].
  eapply (tg_cons KEnd _ _ (ev (esc "[F"))); [apply ty_end|reflexivity|repeat constructor|discriminate|].
  eapply (tg_cons KBackspace _ _ (ev [ascii_of_nat 127])); [apply (ty_back (ascii_of_nat 127)); cbn; tauto|reflexivity|repeat constructor|discriminate|].
  eapply (tg_cons (KEnter true) _ _ [_]); [apply (ty_enter (ascii_of_nat 13)); cbn; tauto|reflexivity|repeat constructor|intros ig E; injection E as <-; repeat constructor|].
  eapply (tg_cons KNext _ _ (ev (esc "[B"))); [apply ty_down|reflexivity|repeat constructor|discriminate|].
  eapply (tg_cons KCtrlC _ _ (ev [ascii_of_nat 3]) []); [apply ty_ctrl_c|reflexivity|repeat constructor|discriminate|].
  apply tg_nil.
Qed.

(** The full claim fails: two Down arrows at the first prompt, *)
Theorem C20_two_downs_refuted : exists evs, map ch evs = esc "[B" ++ esc "[B" /\
  Forall (fun ev => 0 < width ev) evs /\ editor_run editor_init evs = UB.
Proof. exact two_downs_lemma. Qed.
Print Assumptions C20_two_downs_refuted.

(** and a terminal that reports width 0 divides by zero on the first history key. *)
Theorem C20_zero_width_refuted : exists evs, map ch evs = s "a" ++ [LF] ++ esc "[A" /\
  Forall (fun ev => width ev = 0) evs /\ editor_run editor_init evs = UB.
Proof. exact zero_width_lemma. Qed.
Print Assumptions C20_zero_width_refuted.

(** At the end of the input no line is delivered: each further read appends the byte
    255 to the line, for as long as the thread runs. *)
Theorem C20_end_of_input : forall n e w ig, at_ e = MStart -> cursor_index e = length (read_str e) ->
  editor_run e (repeat {| ch := EOF_char; width := w; ignoring := ig |} n) =
  Ret ([], start_ (read_str e ++ repeat EOF_char n) (length (read_str e) + n) (hist e)).
Proof. exact eof_lemma. Qed.
Print Assumptions C20_end_of_input.

Example C20_end_of_input_nonvacuous :
  at_ editor_init = MStart /\ cursor_index editor_init = length (read_str editor_init).
Proof. split; reflexivity. Qed.
