(** Vocabulary of C122-C126: what a usage text says, independently of how it is gone through. *)
From Verif Require Export Usage_model.
Local Open Scope Z_scope.

(** the pieces of [t] between the characters [c] *)
Fixpoint split_on (c : ascii) (t : str) : list str :=
  match t with
  | [] => [[]]
  | x :: t' => if Ascii.eqb x c then [] :: split_on c t' else match split_on c t' with p :: ps => (x :: p) :: ps | [] => [[x]] end
  end.

(** a row: its cells (between tabs), and the lines of each cell (between vertical tabs) *)
Definition row := list (list str).
Definition row_of (t : str) : row := map (split_on VT) (split_on TAB t).
(** the rows of a help text are its lines *)
Definition rows_of (h : str) : list row := map row_of (split_on NL h).
(** the tables: the help texts between the entries that have none *)
Fixpoint tables (u : list entry) : list (list row) :=
  match u with
  | [] => []
  | e :: u' =>
    match help e with
    | None => tables u'
    | Some h => match u' with
                | e' :: _ => match help e' with
                             | Some _ => match tables u' with t :: ts => (rows_of h ++ t) :: ts | [] => [rows_of h] end
                             | None => rows_of h :: tables u'
                             end
                | [] => [rows_of h]
                end
    end
  end.

(** an array of descriptors with its last element {0,0,0,0,0,0}; C texts *)
Definition the_end : entry := {| shortopt := false; help := None |}.
Definition byte_FF : ascii := "255".
Definition proper (u : list entry) : Prop := forall e, In e u -> shortopt e = true /\ (forall h, help e = Some h -> ~ In NUL h /\ ~ In byte_FF h).

(** columns of a text on the screen: a byte above 0xC1 and the continuation bytes after it are one character, every other
    byte is one; wide characters take two columns *)
Fixpoint columns_after (skip : nat) (t : str) : nat :=
  match t with
  | [] => 0
  | c :: t' => match skip with
               | O => let r := one_char c t' in snd r + columns_after (fst r - 1) t'
               | S n => columns_after n t'
               end
  end%nat.
Definition columns (t : str) : Z := Z.of_nat (columns_after 0 t).

(** the lines of a row *)
Definition height (r : row) : nat := fold_right Nat.max 0%nat (map (@length str) r).
(** the rows that are not split into cells or lines *)
Definition interjection (r : row) : bool := match r with [[_]] => true | _ => false end.

(** the parts of a row, line by line and cell by cell; cells with fewer lines have empty ones.  [e]: what ends the row. *)
Definition after (e : ascii) (r : row) (c j : nat) : ascii :=
  if (S j <? length (nth c r []))%nat then VT else if (S c <? length r)%nat then TAB else e.
Definition part_at (e : ascii) (r : row) (j c : nat) : part :=
  let t := nth j (nth c r []) [] in
  {| pcol := Z.of_nat c; pline := j; pdata := t; pafter := after e r c j; pscreen := columns t |}.
Definition parts_of (e : ascii) (r : row) : list part :=
  flat_map (fun j => map (part_at e r j) (seq 0 (length r))) (seq 0 (height r)).

(** the characters of a text other than spaces and line ends *)
Definition ink (t : str) : str := filter (fun c => negb (Ascii.eqb c " " || Ascii.eqb c NL)) t.

(** [s] is made of the texts [ts], each in its order, mixed *)
Inductive interleaved : list str -> str -> Prop :=
| interleaved_nil : forall ts, (forall t, In t ts -> t = []) -> interleaved ts []
| interleaved_cons : forall a c t b s, interleaved (a ++ t :: b) s -> interleaved (a ++ (c :: t) :: b) (c :: s).

(** the first eight columns of a row, without spaces *)
Definition column_ink (r : row) (c : nat) : str := ink (concat (nth c r [])).
Definition columns_ink (r : row) : list str := map (column_ink r) (seq 0 8).

(** the width that is used: 80 instead of less than one, at most 10000 *)
Definition used (width : Z) : Z := if width <? 1 then 80 else Z.min width 10000.
(** the last column of a table, of at most eight; the width of a column in it: that of its widest line in the rows that
    are split; where a column starts *)
Definition last_column (t : list row) : nat := fold_right (fun r n => Nat.max n (Nat.min 7 (length r - 1))) 0%nat t.
Definition column_width (t : list row) (c : nat) : Z :=
  fold_right (fun r n => if interjection r then n else fold_right (fun l n => Z.max n (columns l)) n (nth c r [])) 0 t.
Definition column_start (t : list row) (c : nat) : Z := fold_right (fun k n => column_width t k + n) 0 (seq 0 c).

(** a row of single lines, in columns as wide as those of the table *)
Fixpoint aligned (t : list row) (c : nat) (r : row) : str :=
  match r with
  | [] => []
  | cell :: r' => concat cell ++ match r' with [] => [] | _ => spaces (column_width t c - columns (concat cell)) ++ aligned t (S c) r' end
  end.
(** rows of single lines, in at most eight columns that all fit *)
Definition single_lines (r : row) : Prop := forall cell, In cell r -> length cell = 1%nat.
Definition fits (width : Z) (t : list row) : Prop :=
  (forall r, In r t -> single_lines r /\ (length r <= 8)%nat /\ (interjection r = true -> columns (concat (concat r)) <= width)) /\
  column_start t (S (last_column t)) <= width /\ column_start t (last_column t) + 2 <= width /\ (last_column t = 0%nat \/ 0 < column_width t (last_column t) < 10000).

(** what a row may print: whole lines, made of its first eight columns *)
Definition prints (r : row) (x : str) : Prop := interleaved (columns_ink r) (ink x) /\ exists y, x = y ++ [NL].
(** how often a character occurs *)
Definition occurrences (c : ascii) (t : str) : nat := count_occ ascii_dec t c.

(** UTF-8: the bytes of a code point, RFC 3629 *)
Definition utf8 (n : N) : str := map ascii_of_N
  (if n <? 0x80 then [n]
   else if n <? 0x800 then [0xC0 + n / 64; 0x80 + n mod 64]
   else if n <? 0x10000 then [0xE0 + n / 4096; 0x80 + n / 64 mod 64; 0x80 + n mod 64]
   else [0xF0 + n / 262144; 0x80 + n / 4096 mod 64; 0x80 + n / 64 mod 64; 0x80 + n mod 64])%N.
Definition code_point (n : N) : Prop := (n <= 0x10FFFF)%N.
Definition is_utf8 (t : str) : Prop := exists l, Forall code_point l /\ t = flat_map utf8 l.
(** the characters that are documented to be wide, optionparser.h:2206-2218 *)
Definition wide_ranges : list (N * N) :=
  [(0x1100, 0x115F); (0x2329, 0x232A); (0x2E80, 0xA4C6); (0xA960, 0xA97C); (0xAC00, 0xD7FB); (0xF900, 0xFAFF);
   (0xFE10, 0xFE6B); (0xFF01, 0xFF60); (0xFFE0, 0xFFE6); (0x1B000, 0x10FFFF)]%N.
Definition screen_width (n : N) : Z := if existsb (fun r => (fst r <=? n) && (n <=? snd r))%N wide_ranges && negb (n =? 0x303F)%N then 2 else 1.
