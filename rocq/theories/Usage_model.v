(** Model of printUsage of thirdparty/optionparser/optionparser.h:2007-3028 (LinePartIterator,
    LineWrapper and PrintUsageImplementation::printUsage).

    A [const char*] into a text is the rest of the text from there; reading at its end gives the
    NUL that ends it.  What is given to the writer is one text, in order.  Sizes of texts are
    below 2^31. *)
From Verif Require Export Str Outcome.
From Coq Require Export ZArith NArith.
Local Open Scope Z_scope.

Definition NUL : ascii := "000". Definition TAB : ascii := "009". Definition NL : ascii := "010". Definition VT : ascii := "011".
Definition at_ (p : str) : ascii := match p with [] => NUL | c :: _ => c end.
Definition code (c : ascii) : N := N_of_ascii c.

(** ** Characters on the screen *)

(** 2220-2232 *)
Definition is_wide (ch : N) : bool :=
  (if ch =? 0x303F then false else
   ((0x1100 <=? ch) && (ch <=? 0x115F)) || ((0x2329 <=? ch) && (ch <=? 0x232A)) || ((0x2E80 <=? ch) && (ch <=? 0xA4C6))
   || ((0xA960 <=? ch) && (ch <=? 0xA97C)) || ((0xAC00 <=? ch) && (ch <=? 0xD7FB)) || ((0xF900 <=? ch) && (ch <=? 0xFAFF))
   || ((0xFE10 <=? ch) && (ch <=? 0xFE6B)) || ((0xFF01 <=? ch) && (ch <=? 0xFF60)) || ((0xFFE0 <=? ch) && (ch <=? 0xFFE6))
   || (0x1B000 <=? ch))%N.

(** [((unsigned char) c ^ 0x80) <= 0x3F], 2300 and 2739 *)
Definition continuation (c : ascii) : bool := (N.lxor (code c) 0x80 <=? 0x3F)%N.
(** [(unsigned) -1 >> __builtin_clz(ch ^ 0xff)] for [ch] from 0xC2 to 0xFE, 2298 and 2736 *)
Definition mask (ch : N) : N := N.ones (N.size (N.lxor ch 0xFF)).
(** the loop over continuation bytes, 2300-2304 and 2738-2743: the code point and the number of bytes read *)
Fixpoint decode (ch : N) (p : str) : N * nat :=
  match p with
  | c :: p' => if continuation c then let r := decode (N.lxor (N.lxor ((N.shiftl ch 6) mod 2 ^ 32) (code c)) 0x80)%N p' in (fst r, S (snd r)) else (ch, 0%nat)
  | [] => (ch, 0%nat)
  end.
(** the bytes and the columns on the screen of the character that begins with [c], followed by [p]: 2294-2311 and
    2730-2755 are the same computation.  For 0xFF, [__builtin_clz(0)] is undefined: see [update_length]. *)
Definition one_char (c : ascii) (p : str) : nat * nat :=
  if (0xC1 <? code c)%N
  then let r := decode (N.land (code c) (mask (code c))) p in (S (snd r), if ((0x1100 <=? fst r)%N && is_wide (fst r))%bool then 2%nat else 1%nat)
  else (1%nat, 1%nat).

Definition ends_part (c : ascii) : bool := Ascii.eqb c NUL || Ascii.eqb c VT || Ascii.eqb c TAB || Ascii.eqb c NL.

(** 2289-2313: [len] and [screenlen] of the part at [p] *)
Fixpoint update_loop (fuel : nat) (p : str) (len screenlen : nat) : outcome (nat * nat) :=
  match fuel with
  | O => OutOfFuel
  | S fuel =>
    match p with
    | [] => Ret (len, screenlen)
    | c :: p' =>
      if ends_part c then Ret (len, screenlen)
      else if (code c =? 0xFF)%N then UB
      else let r := one_char c p' in update_loop fuel (skipn (fst r) p) (len + fst r) (screenlen + snd r)
    end
  end.
Definition update_length (p : str) : outcome (nat * nat) := update_loop (S (length p)) p 0 0.

(** ** LinePartIterator *)

(** the fields of Descriptor that printUsage reads: [shortopt != 0] and [help] *)
Record entry := { shortopt : bool; help : option str }.

(** 2272-2282; [tablestart] and [rowdesc] are the rest of the array from there *)
Record iter := {
  tablestart : list entry; rowdesc : option (list entry); rowstart : option str; ptr : option str;
  col : Z; len : nat; screenlen : nat; max_line : nat; line : nat; target : nat; hit : bool }.

(** 2318-2331 *)
Definition iter_new (usage : list entry) : iter :=
  {| tablestart := usage; rowdesc := None; rowstart := None; ptr := None; col := -1; len := 0; screenlen := 0; max_line := 0; line := 0; target := 0; hit := true |}.

(** 2344-2347; beyond the array: undefined *)
Fixpoint skip_table (u : list entry) : outcome (list entry) :=
  match u with
  | [] => UB
  | e :: u' => match help e with Some _ => if shortopt e then skip_table u' else Ret u | None => Ret u end
  end.
(** 2351-2354 *)
Fixpoint skip_breaks (u : list entry) : outcome (list entry) :=
  match u with
  | [] => UB
  | e :: u' => match help e with None => if shortopt e then skip_breaks u' else Ret u | Some _ => Ret u end
  end.

(** 2363-2368 *)
Definition restart_table (i : iter) : iter :=
  {| tablestart := tablestart i; rowdesc := Some (tablestart i); rowstart := match tablestart i with e :: _ => help e | [] => None end; ptr := None;
     col := col i; len := len i; screenlen := screenlen i; max_line := max_line i; line := line i; target := target i; hit := hit i |}.

Definition set_table (i : iter) (u : list entry) : iter :=
  {| tablestart := u; rowdesc := rowdesc i; rowstart := rowstart i; ptr := ptr i;
     col := col i; len := len i; screenlen := screenlen i; max_line := max_line i; line := line i; target := target i; hit := hit i |}.

(** 2338-2358 *)
Definition next_table (i : iter) : outcome (bool * iter) :=
  obind (match rowdesc i with Some _ => skip_table (tablestart i) | None => Ret (tablestart i) end) (fun u =>
  obind (skip_breaks u) (fun u =>
  let i' := restart_table (set_table i u) in
  Ret (match rowstart i' with Some _ => true | None => false end, i'))).

(** 2410-2420 *)
Definition restart_row (i : iter) : iter :=
  {| tablestart := tablestart i; rowdesc := rowdesc i; rowstart := rowstart i; ptr := rowstart i;
     col := -1; len := 0; screenlen := 0; max_line := 0; line := 0; target := 0; hit := true |}.

Definition set_row (i : iter) (d : option (list entry)) (r : option str) : iter :=
  {| tablestart := tablestart i; rowdesc := d; rowstart := r; ptr := ptr i;
     col := col i; len := len i; screenlen := screenlen i; max_line := max_line i; line := line i; target := target i; hit := hit i |}.

(** 2383-2386 *)
Fixpoint to_row_end (p : str) : str :=
  match p with [] => [] | c :: p' => if Ascii.eqb c NUL || Ascii.eqb c NL then p else to_row_end p' end.

(** 2375-2405; on [return false] only [ptr] has changed, which is not read any more before restart_table *)
Definition next_row (i : iter) : outcome (bool * iter) :=
  match ptr i with
  | None => let i' := restart_row i in Ret (match rowstart i' with Some _ => true | None => false end, i')
  | Some p =>
    match to_row_end p with
    | c :: p' => if Ascii.eqb c NL then Ret (true, restart_row (set_row i (rowdesc i) (Some p'))) else UB
    | [] =>
      match rowdesc i with
      | Some (_ :: d) =>
        match d with
        | [] => UB
        | e :: _ => match help e with None => Ret (false, i) | Some h => Ret (true, restart_row (set_row i (Some d) (Some h))) end
        end
      | _ => UB
      end
    end
  end.

Definition set_part (i : iter) (p : str) (c : Z) (n w mx l t : nat) (h : bool) : iter :=
  {| tablestart := tablestart i; rowdesc := rowdesc i; rowstart := rowstart i; ptr := Some p;
     col := c; len := n; screenlen := w; max_line := mx; line := l; target := t; hit := h |}.

(** update_length() and return [b] *)
Definition measured (i : iter) (b : bool) (p : str) (c : Z) (mx l t : nat) (h : bool) : outcome (bool * iter) :=
  obind (update_length p) (fun r => Ret (b, set_part i p c (fst r) (snd r) mx l t h)).

(** 2444-2498, the loop of next() *)
Fixpoint next_loop (fuel : nat) (i : iter) (start p : str) (c : Z) (mx l t : nat) (h : bool) : outcome (bool * iter) :=
  match fuel with
  | O => OutOfFuel
  | S fuel =>
    let x := at_ p in
    if Ascii.eqb x VT
    then let l := S l in let mx := Nat.max mx l in let p := tl p in
         if (l =? t)%nat then measured i true p c mx l t true else next_loop fuel i start p c mx l t h
    else if Ascii.eqb x TAB
    then if negb h then measured i true p c mx l t true
         else let p := tl p in
              if (0 =? t)%nat then measured i true p (c + 1) mx 0 t true else next_loop fuel i start p (c + 1) mx 0 t false
    else if Ascii.eqb x NUL || Ascii.eqb x NL
    then if negb h then measured i true p c mx l t true
         else let t := S t in
              if (mx <? t)%nat then measured i false p c mx l t h else next_loop fuel i start start 0 mx 0 t false
    else next_loop fuel i start (tl p) c mx l t h
  end.

(** 2429-2499 *)
Definition next (i : iter) : outcome (bool * iter) :=
  match ptr i with
  | None => Ret (false, i)
  | Some p =>
    if col i =? -1 then measured i true p 0 (max_line i) (line i) (target i) (hit i)
    else match rowstart i with
         | None => UB
         | Some r => next_loop (2 * length r + 4) i r (skipn (len i) p) (col i) (max_line i) (line i) (target i) (hit i)
         end
  end.

(** what printUsage asks of a part: column(), line(), the text at data() of length(), the character after it, screenLength() *)
Record part := { pcol : Z; pline : nat; pdata : str; pafter : ascii; pscreen : Z }.
Definition part_of (i : iter) : part :=
  let p := match ptr i with Some p => p | None => [] end in
  {| pcol := col i; pline := target i; pdata := firstn (len i) p; pafter := at_ (skipn (len i) p); pscreen := Z.of_nat (screenlen i) |}.

(** [while (part.next())]: the parts it goes through *)
Fixpoint row_parts (fuel : nat) (i : iter) : outcome (list part * iter) :=
  match fuel with
  | O => OutOfFuel
  | S fuel => obind (next i) (fun r =>
      if fst r then obind (row_parts fuel (snd r)) (fun q => Ret (part_of (snd r) :: fst q, snd q)) else Ret ([], snd r))
  end.
Definition row_fuel (i : iter) : nat := let n := match rowstart i with Some r => length r | None => 0%nat end in ((n + 2) * (n + 2))%nat.

(** [while (part.nextRow()) while (part.next())]: the parts of each row.  The loops of printUsage go several times through
    the same table, and the last one twice through the same row (restartTable, restartRow): the parts are the same. *)
Fixpoint table_rows (fuel : nat) (i : iter) : outcome (list (list part) * iter) :=
  match fuel with
  | O => OutOfFuel
  | S fuel => obind (next_row i) (fun r =>
      if fst r then obind (row_parts (row_fuel (snd r)) (snd r)) (fun q => obind (table_rows fuel (snd q)) (fun z => Ret (fst q :: fst z, snd z)))
      else Ret ([], snd r))
  end.
Definition table_fuel (i : iter) : nat := fold_right (fun e n => (match help e with Some h => S (length h) | None => 0%nat end + n)%nat) 2%nat (tablestart i).

(** ** LineWrapper *)

(** 2572-2602; a slot of lenbuf and datbuf is the text it stands for *)
Record wrapper := { slots : list str; head : nat; tail : nat; wx : Z; wwidth : Z; wrote : bool }.

(** 2805-2817; wrote_something is not initialised, but process and flush set it first *)
Definition wrapper_new (x1 x2 : Z) : wrapper :=
  {| slots := repeat [] 16; head := 0; tail := 15; wx := x1; wwidth := if x2 - x1 <? 2 then 2 else x2 - x1; wrote := false |}.

Definition band15 (n : nat) : nat := (n mod 16)%nat.
(** 2604-2612 *)
Definition buf_empty (w : wrapper) : bool := (band15 (tail w + 1) =? head w)%nat.
Definition buf_full (w : wrapper) : bool := (tail w =? head w)%nat.
Definition set_slot (l : list str) (n : nat) (t : str) : list str := firstn n l ++ t :: skipn (S n) l.
(** 2614-2621 *)
Definition buf_store (w : wrapper) (t : str) : wrapper :=
  {| slots := set_slot (slots w) (head w) t; head := band15 (head w + 1); tail := tail w; wx := wx w; wwidth := wwidth w; wrote := wrote w |}.
(** 2624-2627 *)
Definition buf_next (w : wrapper) : wrapper :=
  {| slots := slots w; head := head w; tail := band15 (tail w + 1); wx := wx w; wwidth := wwidth w; wrote := wrote w |}.
Definition set_wrote (w : wrapper) (b : bool) : wrapper :=
  {| slots := slots w; head := head w; tail := tail w; wx := wx w; wwidth := wwidth w; wrote := b |}.

Definition newline : str := [NL].
Definition spaces (n : Z) : str := repeat " "%char (Z.to_nat n).
(** 2179-2200: the new [x] and the text written *)
Definition indent (x want : Z) : Z * str :=
  let i := want - x in
  let nl := if i <? 0 then newline else [] in
  let i := if i <? 0 then want else i in
  if 0 <? i then (want, nl ++ spaces i) else (x, nl).

(** 2649-2666 *)
Definition write_one_line (w : wrapper) : wrapper * str :=
  let first := if wrote w then newline ++ snd (indent 0 (wx w)) else [] in
  if buf_empty w then (set_wrote w true, first)
  else let w := buf_next w in (set_wrote w true, first ++ nth (tail w) (slots w) []).

(** 2633-2644 *)
Definition output (w : wrapper) (t : str) : wrapper * str :=
  if buf_full w then let r := write_one_line w in (buf_store (fst r) t, snd r) else (buf_store w t, []).

(** 2675-2690, the loop of flush: at most 15 lines *)
Fixpoint flush_loop (fuel : nat) (w : wrapper) : wrapper * str :=
  match fuel with
  | O => (w, [])
  | S fuel => if buf_empty w then (w, []) else let r := write_one_line w in let q := flush_loop fuel (fst r) in (fst q, snd r ++ snd q)
  end.
Definition flush (w : wrapper) : wrapper * str :=
  if buf_empty w then (w, [])
  else let r := flush_loop 16 (set_wrote w false) in (fst r, snd (indent 0 (wx w)) ++ snd r ++ newline).

(** 2726-2756: how many bytes of [p] fit into [width] columns, [u] of which are used *)
Fixpoint fit (fuel : nat) (width : Z) (p : str) (u : Z) : nat :=
  match fuel with
  | O => 0%nat
  | S fuel =>
    match p with
    | [] => 0%nat
    | c :: p' =>
      if u <? width
      then let r := one_char c p' in
           if (snd r =? 2)%nat && (width <? u + 2) then 0%nat
           else (fst r + fit fuel width (skipn (fst r) p) (u + Z.of_nat (snd r)))%nat
      else 0%nat
    end
  end.

(** 2768-2775: the last space at or before position [n] *)
Fixpoint last_space (n : nat) (p : str) : option nat :=
  if Ascii.eqb (nth n p NUL) " " then Some n else match n with O => None | S n => last_space n p end.

(** 2717-2792, the loop of process *)
Fixpoint process_loop (fuel : nat) (w : wrapper) (data : str) : outcome (wrapper * str) :=
  match fuel with
  | O => OutOfFuel
  | S fuel =>
    match data with
    | [] => Ret (w, [])
    | _ =>
      if Z.of_nat (length data) <=? wwidth w then Ret (output w data)
      else let maxi := fit (length data) (wwidth w) data 0 in
           if (maxi =? length data)%nat then Ret (output w data)
           else match last_space maxi data with
                | Some i => let r := output w (firstn i data) in obind (process_loop fuel (fst r) (skipn (S i) data)) (fun q => Ret (fst q, snd r ++ snd q))
                | None => let r := output w (firstn maxi data) in obind (process_loop fuel (fst r) (skipn maxi data)) (fun q => Ret (fst q, snd r ++ snd q))
                end
    end
  end.
(** 2710-2797 *)
Definition process (w : wrapper) (data : str) : outcome (wrapper * str) :=
  obind (process_loop (S (length data)) (set_wrote w false) data) (fun r =>
  if wrote (fst r) then Ret r else let q := write_one_line (fst r) in Ret (fst q, snd r ++ snd q)).

(** ** printUsage *)

Definition upmax (a b : Z) : Z := if b <=? a then a else b.
Definition maxcolumns : Z := 8.
(** a cell of [int col_width[8]] *)
Definition col_at (l : list Z) (c : Z) : Z := nth (Z.to_nat c) l 0.
Definition col_set (l : list Z) (c v : Z) : list Z := firstn (Z.to_nat c) l ++ v :: skipn (S (Z.to_nat c)) l.

(** 2882-2883 and 2976-2977: the part belongs to a row with separators *)
Definition in_table (p : part) : bool :=
  (0 <? pcol p) || (0 <? pline p)%nat || Ascii.eqb (pafter p) TAB || Ascii.eqb (pafter p) VT.

(** 2869-2890 *)
Definition measure_part (threshold : Z) (acc : Z * list Z) (p : part) : Z * list Z :=
  if pcol p <? maxcolumns
  then let last := upmax (fst acc) (pcol p) in
       if (pscreen p <? threshold) && in_table p then (last, col_set (snd acc) (pcol p) (upmax (col_at (snd acc) (pcol p)) (pscreen p)))
       else (last, snd acc)
  else acc.
Definition measure (threshold : Z) (rows : list (list part)) : Z * list Z :=
  fold_left (fun acc row => fold_left (measure_part threshold) row acc) rows (0, repeat 0 8).

Definition left_width (last : Z) (w : list Z) : Z := fold_left Z.add (firstn (Z.to_nat last) w) 0.
Definition widest (last : Z) (w : list Z) : Z := fold_left upmax (firstn (Z.to_nat last) w) 0.

(** 2860-2911, the do-while loop *)
Fixpoint widths_loop (fuel : nat) (width threshold : Z) (rows : list (list part)) : outcome (Z * list Z) :=
  match fuel with
  | O => OutOfFuel
  | S fuel => let m := measure threshold rows in
              if width <? left_width (fst m) (snd m) then widths_loop fuel width (widest (fst m) (snd m)) rows else Ret m
  end.
Definition column_widths (width : Z) (rows : list (list part)) : outcome (Z * list Z) := widths_loop (Z.to_nat 10001) width 10000 rows.

(** 2915-2920 *)
Definition tabstop (w : list Z) (c : Z) : Z := fold_left Z.add (firstn (Z.to_nat c) w) 0.

Record layout := { llast : Z; lwidths : list Z; lright : Z; lown : bool; lwidth : Z }.
(** 2922-2948 *)
Definition layout_of (width min_width own_width : Z) (m : Z * list Z) : layout :=
  let right := width - tabstop (snd m) (fst m) in
  let own := (right <? min_width) && ((col_at (snd m) (fst m) =? 0) || (right <? col_at (snd m) (fst m))) in
  {| llast := fst m; lwidths := snd m; lright := if own then own_width else right; lown := if fst m =? 0 then false else own; lwidth := width |}.

(** what changes while a row is printed: [x], the two wrappers, and what has been written *)
Record pstate := { px : Z; plast : wrapper; pinter : wrapper; pout : str }.

(** 2959-2995 *)
Definition print_part (l : layout) (st : pstate) (p : part) : outcome pstate :=
  if llast l <? pcol p then Ret st
  else
    let nl := if (pcol p =? 0) && (0 <=? px st) then newline else [] in
    let x := if pcol p =? 0 then 0 else px st in
    let r := indent x (tabstop (lwidths l) (pcol p)) in
    let out := pout st ++ nl ++ snd r in
    if (pcol p <? llast l) && in_table p
    then Ret {| px := fst r + pscreen p; plast := plast st; pinter := pinter st; pout := out ++ pdata p |}
    else if negb (lown l) || negb (pcol p =? llast l)
    then if pcol p =? 0
         then obind (process (pinter st) (pdata p)) (fun q => Ret {| px := fst r; plast := plast st; pinter := fst q; pout := out ++ snd q |})
         else obind (process (plast st) (pdata p)) (fun q => Ret {| px := fst r; plast := fst q; pinter := pinter st; pout := out ++ snd q |})
    else Ret {| px := fst r; plast := plast st; pinter := pinter st; pout := out |}.

Fixpoint print_parts (l : layout) (st : pstate) (ps : list part) : outcome pstate :=
  match ps with [] => Ret st | p :: ps => obind (print_part l st p) (fun st => print_parts l st ps) end.

(** 3000-3010 *)
Fixpoint print_own (l : layout) (st : pstate) (ps : list part) : outcome pstate :=
  match ps with
  | [] => Ret st
  | p :: ps =>
    if pcol p =? llast l
    then obind (process (plast st) (pdata p)) (fun q =>
         print_own l {| px := px st; plast := fst q; pinter := pinter st; pout := pout st ++ newline ++ snd (indent 0 (lwidth l - lright l)) ++ snd q |} ps)
    else print_own l st ps
  end.

(** 2956-3015: a row *)
Definition print_row (l : layout) (st : pstate) (ps : list part) : outcome pstate :=
  obind (print_parts l {| px := -1; plast := plast st; pinter := pinter st; pout := pout st |} ps) (fun st =>
  obind (if lown l then print_own l st ps else Ret st) (fun st =>
  let a := flush (plast st) in let b := flush (pinter st) in
  Ret {| px := px st; plast := fst a; pinter := fst b; pout := pout st ++ newline ++ snd a ++ snd b |})).

Fixpoint print_rows (l : layout) (st : pstate) (rows : list (list part)) : outcome pstate :=
  match rows with [] => Ret st | r :: rows => obind (print_row l st r) (fun st => print_rows l st rows) end.

(** 2853-3016: a table *)
Definition print_table (width min_width own_width : Z) (rows : list (list part)) : outcome str :=
  obind (column_widths width rows) (fun m =>
  let l := layout_of width min_width own_width m in
  obind (print_rows l {| px := -1; plast := wrapper_new (lwidth l - lright l) (lwidth l); pinter := wrapper_new 0 (lwidth l); pout := [] |} rows) (fun st =>
  Ret (pout st))).

(** int: [((width * percent) + 50) / 100] *)
Definition percent_of (width percent : Z) : outcome Z :=
  let a := width * percent in
  if (- 2 ^ 31 <=? a) && (a + 50 <? 2 ^ 31) then Ret ((a + 50) ÷ 100) else UB.

Fixpoint print_tables (fuel : nat) (width min_width own_width : Z) (i : iter) : outcome str :=
  match fuel with
  | O => OutOfFuel
  | S fuel => obind (next_table i) (fun r =>
      if fst r
      then obind (table_rows (table_fuel (snd r)) (restart_table (snd r))) (fun q =>
           obind (print_table width min_width own_width (fst q)) (fun t =>
           obind (print_tables fuel width min_width own_width (snd q)) (fun ts => Ret (t ++ ts))))
      else Ret [])
  end.

(** 2826-3018 *)
Definition print_usage (usage : list entry) (width min_percent own_percent : Z) : outcome str :=
  let width := if width <? 1 then 80 else width in
  let width := if 10000 <? width then 10000 else width in
  obind (percent_of width min_percent) (fun min_width =>
  obind (percent_of width own_percent) (fun own_width =>
  print_tables (S (length usage)) width min_width (if own_width =? 0 then 1 else own_width) (iter_new usage))).
