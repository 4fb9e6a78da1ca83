(** Vocabulary of C134 and C135. *)
From Verif Require Import Screen_model.
Local Open Scope nat_scope.

(** from the row [r] on the terminal shows this text, in rows of [W] characters, and nothing else *)
Definition displays (W : nat) (t : term) (r : nat) (text : str) : Prop :=
  forall i j, j < W -> cells t (r + i) j = nth (i * W + j) text " "%char.
(** the cursor is on this character of it *)
Definition cursor_on (W : nat) (t : term) (r : nat) (k : nat) : Prop := row t = r + k / W /\ col t = k mod W.
Definition text_of (e : editor) : str := s ">> " ++ read_str e.
Definition position (e : editor) : nat := 3 + cursor_index e.

(** the rows of a text *)
Definition rows (W : nat) (text : str) : nat := S ((length text - 1) / W).
(** the rows from [r] on are those for the line, and on the screen *)
Definition on_screen (W H : nat) (t : term) (r : nat) (text : str) : Prop := S (bottom t) <= r + H /\ r + rows W text <= S (bottom t).

(** the cursor is behind a line that fills its last row *)
Definition full (W : nat) (e : editor) : Prop := position e = length (text_of e) /\ length (text_of e) mod W = 0.

(** the line is shown, with the cursor where the next character goes; except when [full], when it is somewhere in the last row *)
Definition shown (W H : nat) (e : editor) (t : term) (r : nat) : Prop :=
  displays W t r (text_of e) /\ on_screen W H t r (text_of e) /\ cursor_index e <= length (read_str e) /\
  (~ full W e -> cursor_on W t r (position e) /\ pending t = false) /\ (full W e -> S (row t) = r + rows W (text_of e)).
(** nothing has been typed yet, and the cursor is on an empty row with empty rows below *)
Definition fresh (W H : nat) (e : editor) (t : term) (r : nat) : Prop :=
  displays W t r [] /\ row t = r /\ read_str e = [] /\ cursor_index e = 0 /\ on_screen W H t r [].

(** the line fits on the screen *)
Definition fits (W H : nat) (e : editor) : Prop := rows W (text_of e) <= H.
(** the cursor is in the last row of the line, or behind it *)
Definition in_last_row (W : nat) (e : editor) : Prop := rows W (text_of e) <= S (position e / W).
(** keys that leave the line (Enter, Ctrl+C) or replace it by one of the history *)
Definition leaves (e : editor) (ev : event) : Prop :=
  match at_ e with
  | MStart => In (ch ev) [LF; CR; ETX]
  | MLetter => In (ch ev) ["A"; "B"]%char
  | MTilde k => In k ["5"; "6"]%char /\ ch ev = "~"%char
  | MBracket => False
  end.
(** keys that move the cursor *)
Definition moves (e : editor) (ev : event) : Prop :=
  match at_ e with MLetter => In (ch ev) ["C"; "D"; "F"; "H"]%char | _ => False end.
(** the line always fits, keys that leave it are pressed with the cursor in its last row, and keys that move the
    cursor neither from nor to the position behind a full row *)
Fixpoint smooth (W H : nat) (e : editor) (evs : list event) : Prop :=
  fits W H e /\
  match evs with
  | [] => True
  | ev :: rest => (leaves e ev -> in_last_row W e) /\
                  match editor_step e ev with Ret (_, e') => (moves e ev -> ~ full W e /\ ~ full W e') /\ smooth W H e' rest | _ => False end
  end.
