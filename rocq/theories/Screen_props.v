(** Properties C134 and C135. *)
From Coq Require Import ZArith Lia.
From Verif Require Import Str Outcome History_model Editor_model Editor_spec Screen_model Screen_spec Screen_proofs.
Local Open Scope nat_scope.

(** Keys of a line that fits on the screen, left (Enter, Ctrl+C, history) from its last row, and with no cursor movement
    from or to the position behind a line that fills its last row: the screen shows the prompt and the line, with the
    cursor where the next character goes, except behind a full row; or nothing has been typed since the last line.
    Missing: the cases of [C134_cursor_refuted], [C134_move_refuted], [C134_enter_refuted] and [C134_tall_refuted], and other characters than printable ASCII. *)
Theorem C134_display_partial : forall W H e t r evs, 3 < W -> 0 < H -> shown W H e t r \/ fresh W H e t r -> smooth W H e evs ->
  exists e' t' r', screen_run W H e t evs = Ret (e', t') /\ r <= r' /\ (shown W H e' t' r' \/ fresh W H e' t' r').
Proof.
  intros W H e t r evs HW HH R S0. destruct (run_lemma W H HW HH evs e t r R S0) as (e' & t' & r' & A & B & C & _).
  exists e', t', r'. auto.
Qed.
Print Assumptions C134_display_partial.

(** a terminal of 8 columns and 4 rows with an "x" in its first row, and the cursor in the row below *)
Definition terminal : term := {| cells := fun i j => if (i =? 0) && (j =? 0) then "x"%char else " "%char; row := 1; col := 0; pending := false; bottom := 3 |}.
Definition keys (l : str) : list event := map (fun c => {| ch := c; width := 8; ignoring := false |}) l.
Lemma terminal_fresh : fresh 8 4 editor_init terminal 1.
Proof.
  unfold fresh, displays, on_screen, terminal. cbn [cells row bottom]. split; [|repeat split; vm_compute; lia].
  intros i j J. destruct (1 + i =? 0) eqn:E; [discriminate|]. destruct (i * 8 + j); reflexivity.
Qed.
Ltac smooth_tac := vm_compute; repeat match goal with
  | |- _ /\ _ => split | |- True => exact I | |- _ <= _ => lia
  | |- ~ _ => intros [? ?]; discriminate
  | |- _ -> _ => let X := fresh in intros X; repeat match goal with X : _ \/ _ |- _ => destruct X | X : _ /\ _ |- _ => destruct X end; try discriminate; try contradiction end.

(** a line of two rows, edited in its first row, Enter, another line and a command of the history *)
Example C134_display_nonvacuous : let evs := keys (s "abcdefghi" ++ esc "[H" ++ s "x" ++ esc "[3~" ++ esc "[F" ++ s "yz" ++ [LF] ++ s "q" ++ esc "[A") in
  fresh 8 4 editor_init terminal 1 /\ smooth 8 4 editor_init evs /\
  match screen_run 8 4 editor_init terminal evs with
  | Ret (e, t) => read_str e = s "xbcdefghiyz" /\ map (cells t 3) (seq 0 8) = s ">> xbcde" /\ map (cells t 4) (seq 0 8) = s "fghiyz  " /\ row t = 4 /\ col t = 6
  | _ => False
  end.
Proof. cbv zeta. split; [exact terminal_fresh|]. split; [smooth_tac|vm_compute; repeat split; reflexivity]. Qed.

(** Of every line and cursor this is false: when five characters after the prompt fill a row of eight columns, the
    cursor is put on the prompt. *)
Theorem C134_cursor_refuted : exists W H e t r evs e' t', 3 < W /\ fresh W H e t r /\ Forall (fun ev => 97 <= nat_of_ascii (ch ev) <= 122) evs /\
  screen_run W H e t evs = Ret (e', t') /\ rows W (text_of e') <= H /\ displays W t' r (text_of e') /\ row t' = r /\ col t' = 0 /\ position e' = 8.
Proof.
  exists 8, 4, editor_init, terminal, 1, (keys (s "abcde")). eexists. eexists. split; [lia|]. split; [exact terminal_fresh|]. split; [repeat constructor|].
  split; [reflexivity|]. split; [vm_compute; lia|]. split; [|repeat split].
  intros i j J. destruct i as [|[|i]].
  - do 8 (destruct j as [|j]; [reflexivity|]). lia.
  - do 8 (destruct j as [|j]; [reflexivity|]). lia.
  - rewrite nth_overflow by (cbn; lia). reflexivity.
Qed.
Print Assumptions C134_cursor_refuted.

(** And End behind a full row moves the cursor below the line: the next character writes the line again, in the row
    below the old one. *)
Theorem C134_move_refuted : exists W H e t r evs e' t', 3 < W /\ fresh W H e t r /\ evs = keys (s "abcd" ++ esc "[H" ++ s "x" ++ esc "[F" ++ s "y") /\
  screen_run W H e t evs = Ret (e', t') /\ rows W (text_of e') <= H /\ text_of e' = s ">> xabcdy" /\ map (cells t' r) (seq 0 W) = s ">> xabcd" /\
  map (cells t' (S r)) (seq 0 W) = s ">> xabcd" /\ ~ displays W t' r (text_of e').
Proof.
  exists 8, 4, editor_init, terminal, 1. eexists. eexists. eexists. split; [lia|]. split; [exact terminal_fresh|]. split; [reflexivity|]. split; [vm_compute; reflexivity|]. split; [vm_compute; lia|].
  split; [reflexivity|]. split; [reflexivity|]. split; [reflexivity|]. intros D. specialize (D 1 0 ltac:(lia)). vm_compute in D. discriminate.
Qed.
Print Assumptions C134_move_refuted.

(** Nor when Enter is pressed in the first row of a line of three: the next line is written over the second row, and
    the third one stays below it. *)
Theorem C134_enter_refuted : exists W H e t r evs e' t', 3 < W /\ fresh W H e t r /\ evs = keys (s "abcdefghijklmnop" ++ esc "[H" ++ [LF] ++ s "q") /\
  screen_run W H e t evs = Ret (e', t') /\ text_of e' = s ">> q" /\ map (cells t' r) (seq 0 W) = s ">> abcde" /\
  map (cells t' (r + 1)) (seq 0 W) = s ">> q    " /\ map (cells t' (r + 2)) (seq 0 W) = s "nop     " /\
  forall r', ~ displays W t' r' (text_of e').
Proof.
  exists 8, 4, editor_init, terminal, 1. eexists. eexists. eexists. split; [lia|]. split; [exact terminal_fresh|]. split; [reflexivity|]. split; [vm_compute; reflexivity|].
  split; [reflexivity|]. split; [reflexivity|]. split; [reflexivity|]. split; [reflexivity|]. intros r' D. destruct r' as [|[|[|r']]].
  - specialize (D 0 0 ltac:(lia)). vm_compute in D. discriminate.
  - specialize (D 0 3 ltac:(lia)). vm_compute in D. discriminate.
  - specialize (D 1 0 ltac:(lia)). vm_compute in D. discriminate.
  - specialize (D 0 0 ltac:(lia)). destruct r' as [|r']; vm_compute in D; discriminate.
Qed.
Print Assumptions C134_enter_refuted.

(** Nor of a line that needs more rows than the screen has: each character typed then writes another copy of its
    beginning, which stays above. *)
Definition low_terminal : term := {| cells := cells terminal; row := 1; col := 0; pending := false; bottom := 1 |}.
Theorem C134_tall_refuted : exists W H e t r evs e' t', 3 < W /\ fresh W H e t r /\ evs = keys (s "abcdefghijklmnop") /\
  screen_run W H e t evs = Ret (e', t') /\ rows W (text_of e') = S H /\ read_str e' = s "abcdefghijklmnop" /\
  Forall (fun i => map (cells t' i) (seq 0 W) = s ">> abcde") [r; r + 1; r + 2].
Proof.
  exists 8, 2, editor_init, low_terminal, 1. eexists. eexists. eexists. split; [lia|]. split.
  { destruct terminal_fresh as (A & _ & C & D & _). split; [exact A|]. repeat split; vm_compute; lia. }
  split; [reflexivity|]. split; [vm_compute; reflexivity|]. split; [reflexivity|]. split; [reflexivity|]. repeat constructor.
Qed.
Print Assumptions C134_tall_refuted.

(** Under the same conditions nothing above the row of the prompt changes, whatever it shows.
    Missing: the cases of [C135_left_refuted] and [C135_history_refuted]. *)
Theorem C135_above_partial : forall W H e t r evs, 3 < W -> 0 < H -> shown W H e t r \/ fresh W H e t r -> smooth W H e evs ->
  exists e' t', screen_run W H e t evs = Ret (e', t') /\ forall i j, i < r -> cells t' i j = cells t i j.
Proof.
  intros W H e t r evs HW HH R S0. destruct (run_lemma W H HW HH evs e t r R S0) as (e' & t' & r' & A & _ & _ & B). exists e', t'. auto.
Qed.
Print Assumptions C135_above_partial.

(** a line of two rows, edited in its first row *)
Example C135_above_nonvacuous : let evs := keys (s "abcdefghi" ++ esc "[H" ++ s "x" ++ esc "[3~") in
  fresh 8 4 editor_init terminal 1 /\ smooth 8 4 editor_init evs /\ cells terminal 0 0 = "x"%char /\
  match screen_run 8 4 editor_init terminal evs with Ret (e, t) => cells t 0 0 = "x"%char /\ row t = 1 /\ rows 8 (text_of e) = 2 | _ => False end.
Proof. cbv zeta. split; [exact terminal_fresh|]. split; [smooth_tac|vm_compute; repeat split; reflexivity]. Qed.

(** Of every key this is false: behind a full row, Left moves to the row above the prompt, and the next character
    erases it. *)
Theorem C135_left_refuted : exists W H e t r evs e' t', 3 < W /\ fresh W H e t r /\ evs = keys (s "abcde" ++ esc "[D" ++ s "f") /\
  screen_run W H e t evs = Ret (e', t') /\ rows W (text_of e') <= H /\ 0 < r /\ cells t (r - 1) 0 = "x"%char /\ cells t' (r - 1) 0 = ">"%char.
Proof.
  exists 8, 4, editor_init, terminal, 1. eexists. eexists. eexists. split; [lia|]. split; [exact terminal_fresh|]. split; [reflexivity|]. split; [vm_compute; reflexivity|]. split; [vm_compute; lia|].
  split; [lia|]. split; reflexivity.
Qed.
Print Assumptions C135_left_refuted.

(** And a command of the history, asked for in the first row of a line of two rows, is written over the row above the
    prompt. *)
Definition editor_with_command : editor := {| at_ := MStart; read_str := []; cursor_index := 0; hist := add_command history_init (s "a") |}.
Theorem C135_history_refuted : exists W H e t r evs e' t', 3 < W /\ fresh W H e t r /\ evs = keys (s "abcdef" ++ esc "[H" ++ esc "[A") /\
  screen_run W H e t evs = Ret (e', t') /\ read_str e' = s "a" /\ 0 < r /\ cells t (r - 1) 0 = "x"%char /\ cells t' (r - 1) 0 = ">"%char.
Proof.
  exists 8, 4, editor_with_command, terminal, 1. eexists. eexists. eexists. split; [lia|]. split; [exact terminal_fresh|]. split; [reflexivity|]. split; [vm_compute; reflexivity|].
  split; [reflexivity|]. split; [lia|]. split; reflexivity.
Qed.
Print Assumptions C135_history_refuted.
