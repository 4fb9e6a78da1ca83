(** Model of the POSIX line editor of
    cpp_utils/src/cpp/event/StdinEventHandler.cpp
    (stdin_listener_thread_routine_, 268-570).  Not modelled: the Windows branches, the
    characters written to the terminal (see Screen_model), the activation counter (see C31). *)
From Verif Require Export Str Outcome History_model.
Local Open Scope Z_scope.

(** one byte returned by [getchar()], with the terminal width reported when it is
    handled and the value of the [ignore_input_] flag.  The end of the input makes
    [getchar()] return EOF, which becomes the byte 255 in the [char] of line 304. *)
Record event := { ch : ascii; width : Z; ignoring : bool }.

Definition ESC : ascii := ascii_of_nat 27.
Definition LF : ascii := ascii_of_nat 10.
Definition CR : ascii := ascii_of_nat 13.
Definition BS : ascii := ascii_of_nat 8.
Definition DEL : ascii := ascii_of_nat 127.
Definition ETX : ascii := ascii_of_nat 3.
Definition EOF_char : ascii := ascii_of_nat 255.

(** which [getchar()] call the thread is at: line 304, line 307, line 308, or the
    one of a key that reads a trailing '~' (lines 38, 400) *)
Inductive mode := MStart | MBracket | MLetter | MTilde (key : ascii).

(** locals [read_str], [cursor_index] (281-282) and member [history_handler_] *)
Record editor := { at_ : mode; read_str : str; cursor_index : nat; hist : history }.

Definition editor_init : editor :=
  {| at_ := MStart; read_str := []; cursor_index := 0%nat; hist := history_init |}.

Definition start_ (l : str) (i : nat) (h : history) : editor :=
  {| at_ := MStart; read_str := l; cursor_index := i; hist := h |}.
Definition goto (e : editor) (m : mode) : editor :=
  {| at_ := m; read_str := read_str e; cursor_index := cursor_index e; hist := hist e |}.

(** StdinEventHandler.cpp:67-74: division by the width *)
Definition compute_lines_needed (w : Z) : outcome unit := if w =? 0 then UB else Ret tt.

(** a step delivers a line to the callback or not *)
Definition quiet (e : editor) : outcome (option str * editor) := Ret (None, e).

(** 312-327 and 437-452 *)
Definition key_previous (e : editor) (w : Z) : outcome (option str * editor) :=
  obind (get_previous_command (hist e)) (fun r =>
  match fst r with
  | [] => quiet (start_ (read_str e) (cursor_index e) (snd r))
  | prev => obind (compute_lines_needed w) (fun _ => quiet (start_ prev (length prev) (snd r)))
  end).

(** 333-358 and 461-483 *)
Definition key_next (e : editor) (w : Z) : outcome (option str * editor) :=
  obind (get_next_command (hist e)) (fun r =>
  obind (compute_lines_needed w) (fun _ => quiet (start_ (fst r) (length (fst r)) (snd r)))).

(** 365-380: left; 387-396: right; 489-497: Home; 504-511: End *)
Definition key_left (e : editor) : outcome (option str * editor) :=
  quiet (start_ (read_str e) (if (0 <? cursor_index e)%nat then (cursor_index e - 1)%nat else cursor_index e) (hist e)).
Definition key_right (e : editor) : outcome (option str * editor) :=
  quiet (start_ (read_str e) (if (cursor_index e <? length (read_str e))%nat then S (cursor_index e) else cursor_index e) (hist e)).
Definition key_home (e : editor) : outcome (option str * editor) := quiet (start_ (read_str e) 0%nat (hist e)).
Definition key_end (e : editor) : outcome (option str * editor) :=
  quiet (start_ (read_str e) (length (read_str e)) (hist e)).

(** [line.erase(line.begin() + i)] for [i < line.size()] *)
Definition erase_at (l : str) (i : nat) : str := firstn i l ++ skipn (S i) l.

(** 411-428: Supr *)
Definition key_delete (e : editor) : outcome (option str * editor) :=
  if (cursor_index e <? length (read_str e))%nat
  then quiet (start_ (erase_at (read_str e) (cursor_index e)) (cursor_index e) (hist e))
  else quiet (goto e MStart).

(** 530-545: backspace; [line.begin() + index - 1] must be dereferenceable *)
Definition key_backspace (e : editor) : outcome (option str * editor) :=
  if (0 <? cursor_index e)%nat then
    if (length (read_str e) <? cursor_index e)%nat then UB
    else quiet (start_ (erase_at (read_str e) (cursor_index e - 1)) (cursor_index e - 1) (hist e))
  else quiet (goto e MStart).

(** 554-564: any other character is inserted at the cursor *)
Definition key_char (e : editor) (c : ascii) : outcome (option str * editor) :=
  if (length (read_str e) <? cursor_index e)%nat then UB
  else quiet (start_ (firstn (cursor_index e) (read_str e) ++ c :: skipn (cursor_index e) (read_str e))
                     (S (cursor_index e)) (hist e)).

(** 515-529: Enter; 546-553: Ctrl+C *)
Definition key_enter (e : editor) (ignore : bool) : outcome (option str * editor) :=
  let h := if negb ignore && negb (length (read_str e) =? 0)%nat then add_command (hist e) (read_str e) else hist e in
  Ret (Some (read_str e), start_ [] 0%nat h).
Definition key_ctrl_c (e : editor) : outcome (option str * editor) := Ret (Some [], start_ [] 0%nat (hist e)).

Definition editor_step (e : editor) (ev : event) : outcome (option str * editor) :=
  let c := ch ev in
  match at_ e with
  | MStart =>
      if Ascii.eqb c ESC then quiet (goto e MBracket)
      else if Ascii.eqb c LF || Ascii.eqb c CR then key_enter e (ignoring ev)
      else if Ascii.eqb c BS || Ascii.eqb c DEL then key_backspace e
      else if Ascii.eqb c ETX then key_ctrl_c e
      else key_char e c
  | MBracket => quiet (goto e MLetter)
  | MLetter =>
      if Ascii.eqb c "A" then key_previous e (width ev)
      else if Ascii.eqb c "B" then key_next e (width ev)
      else if Ascii.eqb c "D" then key_left e
      else if Ascii.eqb c "C" then key_right e
      else if Ascii.eqb c "2" then quiet (goto e (MTilde c))
      else if Ascii.eqb c "3" then quiet (goto e (MTilde c))
      else if Ascii.eqb c "5" then quiet (goto e (MTilde c))
      else if Ascii.eqb c "6" then quiet (goto e (MTilde c))
      else if Ascii.eqb c "H" then key_home e
      else if Ascii.eqb c "F" then key_end e
      else quiet (goto e MStart)
  | MTilde k =>
      if Ascii.eqb k "2" then quiet (goto e MStart)
      else if negb (Ascii.eqb c "~") then quiet (goto e MStart)
      else if Ascii.eqb k "3" then key_delete e
      else if Ascii.eqb k "5" then key_previous e (width ev)
      else if Ascii.eqb k "6" then key_next e (width ev)
      else quiet (goto e MStart)
  end.

(** the lines delivered, in order, and the final state *)
Fixpoint editor_run (e : editor) (evs : list event) : outcome (list str * editor) :=
  match evs with
  | [] => Ret ([], e)
  | ev :: rest =>
      obind (editor_step e ev) (fun r =>
      obind (editor_run (snd r) rest) (fun q =>
      Ret (match fst r with Some l => l :: fst q | None => fst q end, snd q)))
  end.
