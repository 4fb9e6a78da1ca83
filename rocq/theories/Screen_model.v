(** Model of what the line editor of cpp_utils/src/cpp/event/StdinEventHandler.cpp writes to the terminal, and of
    a terminal.  The key handling is that of [Editor_model].  Lines are shorter than 2^31 characters, and every
    character takes one column (printable ASCII). *)
From Verif Require Export Str Outcome Editor_model.
Local Open Scope nat_scope.

(** what is written: a character, carriage return, end of line, ESC[1A, ESC[1B, ESC[nC, ESC[2K and colours *)
Inductive out := Put (c : ascii) | Return | NewLine | Up | Down | Right (n : nat) | EraseRow | Colour.

(** ** The terminal: a VT100 or xterm with [W] columns and [H] rows, that wraps lines.  Rows are counted from the
    first one ever written; the screen shows the rows from [S bottom - H] to [bottom]; rows that are scrolled out are kept.
    After a character in the last column the cursor stays there, and only the next character wraps ([pending]). *)
Record term := { cells : nat -> nat -> ascii; row : nat; col : nat; pending : bool; bottom : nat }.
Section Terminal.
Variables (W H : nat).
Definition blank : ascii := " "%char.
Definition next_row (t : term) : term :=
  {| cells := cells t; row := S (row t); col := 0; pending := false; bottom := Nat.max (bottom t) (S (row t)) |}.
Definition put_here (c : ascii) (t : term) : term :=
  {| cells := fun i j => if (i =? row t) && (j =? col t) then c else cells t i j; row := row t;
     col := if S (col t) =? W then col t else S (col t); pending := S (col t) =? W; bottom := bottom t |}.
Definition emit (t : term) (o : out) : term :=
  match o with
  | Put c => put_here c (if pending t then next_row t else t)
  | Return => {| cells := cells t; row := row t; col := 0; pending := false; bottom := bottom t |}
  | NewLine => next_row t
  | Up => {| cells := cells t; row := if S (bottom t) - H <? row t then row t - 1 else row t; col := col t; pending := false; bottom := bottom t |}
  | Down => {| cells := cells t; row := if row t <? bottom t then S (row t) else row t; col := col t; pending := false; bottom := bottom t |}
  | Right n => {| cells := cells t; row := row t; col := Nat.min (W - 1) (col t + n); pending := false; bottom := bottom t |}
  | EraseRow => {| cells := fun i j => if i =? row t then blank else cells t i j; row := row t; col := col t; pending := pending t; bottom := bottom t |}
  | Colour => t
  end.
Definition emits (t : term) (os : list out) : term := fold_left emit os t.

(** ** What the editor writes *)
Definition prompt : str := s ">> ".
Definition puts (t : str) : list out := map Put t.
(** the prompt in colour and the line: 170, 322, 343, 354, 450, 474, 480 *)
Definition show (line : str) : list out := [Colour] ++ puts prompt ++ [Colour] ++ puts line.
(** rounded up: StdinEventHandler.cpp:67-74, 147, 174 *)
Definition rows_of (line : str) : nat := (length prompt + length line + W - 1) / W.
(** StdinEventHandler.cpp:76-87; also 160-167 *)
Fixpoint clear_lines (n : nat) : list out :=
  match n with 0 => [] | 1 => [EraseRow; Return] | S n => [EraseRow; Return; Up] ++ clear_lines n end.
(** 135-139 and 185-188 *)
Definition to_column (n : nat) : list out := if 0 <? n then [Right n] else [].
(** StdinEventHandler.cpp:89-191 [update_line], from the line and the cursor before and after the modifier *)
Definition update_line (old : str) (old_cursor : nat) (line : str) (cursor : nat) : list out :=
  let old_abs := length prompt + old_cursor in
  let abs := length prompt + cursor in
  if str_eqb line old
  then repeat Down (abs / W - old_abs / W) ++ repeat Up (old_abs / W - abs / W) ++ [Return] ++ to_column (abs mod W)
  else repeat Down (rows_of old - 1 - old_abs / W) ++ clear_lines (rows_of old) ++ show line ++
       repeat Up (rows_of line - 1 - abs / W) ++ [Return] ++ to_column (abs mod W).
(** a command of the history: 317-325, 338-357, 442-450, 465-482 *)
Definition recall (old line : str) : list out := clear_lines (rows_of old) ++ show line.

(** StdinEventHandler.cpp:301-566: what is written when a character is handled, [e'] being the editor afterwards *)
Definition output (e : editor) (ev : event) (e' : editor) : list out :=
  let update := update_line (read_str e) (cursor_index e) (read_str e') (cursor_index e') in
  let previous := match get_previous_command (hist e) with Ret (_ :: _, _) => recall (read_str e) (read_str e') | _ => [] end in
  let next := recall (read_str e) (read_str e') in
  let c := ch ev in
  match at_ e with
  | MStart =>
      if Ascii.eqb c ESC then []
      else if Ascii.eqb c LF || Ascii.eqb c CR then [NewLine]
      else if Ascii.eqb c BS || Ascii.eqb c DEL then (if 0 <? cursor_index e then update else [])
      else if Ascii.eqb c ETX then [NewLine]
      else update
  | MBracket => []
  | MLetter =>
      if Ascii.eqb c "A" then previous
      else if Ascii.eqb c "B" then next
      else if Ascii.eqb c "D" then (if 0 <? cursor_index e then update else [])
      else if Ascii.eqb c "C" || Ascii.eqb c "H" || Ascii.eqb c "F" then update
      else []
  | MTilde k =>
      if Ascii.eqb k "2" || negb (Ascii.eqb c "~") then []
      else if Ascii.eqb k "3" then (if cursor_index e <? length (read_str e) then update else [])
      else if Ascii.eqb k "5" then previous
      else if Ascii.eqb k "6" then next
      else []
  end.

(** the editor and the terminal *)
Fixpoint screen_run (e : editor) (t : term) (evs : list event) : outcome (editor * term) :=
  match evs with
  | [] => Ret (e, t)
  | ev :: rest => obind (editor_step e ev) (fun r => screen_run (snd r) (emits t (output e ev (snd r))) rest)
  end.
End Terminal.
