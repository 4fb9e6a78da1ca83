(** Model of thirdparty/optionparser/optionparser.h: reading the options of a command line.

    - Texts are C strings: the list ends where the NUL is.  usage[] is the list of its descriptors
      before the final one of zeros; names that are null pointers are not modelled.
    - argv is the list of the arguments before the null pointer, or the first argc ones: with
      either of both ends, an absent args[1] is a null pointer for the code.
    - The arguments are distinct strings, none of them inside another one, so that optarg == args[1]
      (:1948) iff the argument was taken from the next element.
    - check_arg is a function of what it can see of the option: the text at its name and its
      argument.  print_errors is left out.
    - printUsage (:2003-3291) is not modelled. *)
From Coq Require Export NArith ZArith.
From Verif Require Export Str.

Definition text := str.

(** :233-276 *)
Inductive arg_status := ARG_NONE | ARG_OK | ARG_IGNORE | ARG_ILLEGAL.

(** :318-432.  [index] is an unsigned. *)
Record descriptor := {
  index : N;
  type : Z;
  shortopt : text;
  longopt : text;
  check_arg : text -> option text -> arg_status }.

(** The members of Option that do not link it, :455-514. *)
Record opt := { desc : descriptor; name : text; arg : option text }.

(** Option::namelen, :853-880: [name] is never null here. *)
Fixpoint until_equals (t : text) : nat :=
  match t with
  | [] => 0
  | c :: r => if Ascii.eqb c "=" then 0 else S (until_equals r)
  end.
Definition namelen (n : text) : nat :=
  match n with
  | c :: r => if Ascii.eqb c "-" then S (until_equals r) else 1
  | [] => 1
  end.

(** Arg::None, :956-961, and Arg::Optional, :964-978. *)
Definition Arg_None (n : text) (a : option text) : arg_status := ARG_NONE.
Definition Arg_Optional (n : text) (a : option text) : arg_status :=
  match a with
  | Some _ => if namelen n <? length n then ARG_OK else ARG_IGNORE
  | None => ARG_IGNORE
  end.

(** :1482-1494 *)
Fixpoint streq (a b : text) : bool :=
  match a, b with
  | [], [] => true
  | [], c :: _ => Ascii.eqb c "="
  | x :: a', y :: b' => Ascii.eqb x y && streq a' b'
  | _ :: _, [] => false
  end.

(** :1520-1533, [n] being the length of the common prefix so far *)
Fixpoint streqabbr_from (n : nat) (a b : text) (min : Z) : bool :=
  let at_end := match b with [] => true | c :: _ => Ascii.eqb c "=" end in
  match a, b with
  | [], _ => at_end
  | x :: a', y :: b' =>
      if Ascii.eqb x y then streqabbr_from (S n) a' b' min
      else (0 <? min)%Z && (min <=? Z.of_nat n)%Z && at_end
  | _ :: _, [] => (0 <? min)%Z && (min <=? Z.of_nat n)%Z && at_end
  end.
Definition streqabbr := streqabbr_from 0.

(** :1541-1550, for a character that is not NUL *)
Fixpoint instr (c : ascii) (t : text) : bool :=
  match t with
  | [] => false
  | x :: r => Ascii.eqb x c || instr c r
  end.

(** the loops over usage: the first descriptor that fulfils a condition, and the ones after it *)
Fixpoint search (f : descriptor -> bool) (usage : list descriptor) : option (descriptor * list descriptor) :=
  match usage with
  | [] => None
  | d :: r => if f d then Some (d, r) else search f r
  end.

(** :1846-1877.  [None] is the final descriptor of usage. *)
Definition find_long (usage : list descriptor) (min_abbr_len : Z) (n : text) : option descriptor :=
  match search (fun d => streq (longopt d) n) usage with
  | Some (d, _) => Some d
  | None =>
      if (0 <? min_abbr_len)%Z then
        match search (fun d => streqabbr (longopt d) n min_abbr_len) usage with
        | Some (d, r) =>
            match search (fun d => streqabbr (longopt d) n min_abbr_len) r with
            | Some _ => None
            | None => Some d
            end
        | None => None
        end
      else None
  end.

(** :1908-1912 *)
Definition find_short (usage : list descriptor) (c : ascii) : option descriptor :=
  option_map fst (search (fun d => instr c (shortopt d)) usage).

(** :1927-1936 *)
Definition find_dummy (usage : list descriptor) : option descriptor :=
  option_map fst (search (fun d => match shortopt d, longopt d with [], [] => true | _, _ => false end) usage).

(** :1557-1567: exchange args[i] and args[i - 1] for i = 0, -1, ..., -count + 1 *)
Definition put (a : list text) (i : nat) (x : text) : list text := firstn i a ++ x :: skipn (S i) a.
Fixpoint shift (a : list text) (pos count : nat) : list text :=
  match count with
  | 0 => a
  | S n =>
      match nth_error a pos, nth_error a (pos - 1) with
      | Some x, Some y => shift (put (put a pos y) (pos - 1) x) (pos - 1) n
      | _, _ => a
      end
  end.

(** what Action::perform answers; [Overrun] is a write outside an array *)
Inductive answer {A : Type} := Next (a : A) | Refuse (a : A) | Overrun.
Arguments answer : clear implicits.

Section Workhorse.
Variable A : Type.
Variable perform : A -> opt -> answer A.
Variable usage : list descriptor.
Variable single_minus_longopt : bool.
Variable min_abbr_len : Z.

(** What one round of the loop over a group does, :1939-1982: [Again] leaves handle_short_options
    as it is; [Taken] has set it to false and tells whether the next element was skipped. *)
Inductive round := Again (a : A) | Taken (skipped : bool) (a : A) | Fatal (skipped : bool) (a : A) | Out.

Definition treat (found : option descriptor) (n : text) (optarg : option text) (detached : bool) (a : A) : round :=
  match (match found with Some d => Some d | None => find_dummy usage end) with
  | None => Again a
  | Some d =>
      match check_arg d n optarg with
      | ARG_ILLEGAL => Fatal false a
      | ARG_OK =>
          let skipped := match optarg with Some _ => detached | None => false end in
          match perform a {| desc := d; name := n; arg := optarg |} with
          | Next a' => Taken skipped a'
          | Refuse a' => Fatal skipped a'
          | Overrun => Out
          end
      | ARG_IGNORE | ARG_NONE =>
          match perform a {| desc := d; name := n; arg := None |} with
          | Next a' => Again a'
          | Refuse a' => Fatal false a'
          | Overrun => Out
          end
      end
  end.

(** :1889-1901: the text after the first '=', if there is one *)
Fixpoint attached (n : text) : option text :=
  match n with
  | [] => None
  | c :: r => if Ascii.eqb c "=" then Some r else attached r
  end.

(** a round with handle_short_options == false after the lookup: [param] is the whole element *)
Definition long_round (found : option descriptor) (param n : text) (next : option text) (a : A) : round :=
  match attached n with
  | Some v => treat found param (Some v) false a
  | None => treat found param next true a
  end.

(** the rounds over the characters of a group, :1903-1922; [t] is what follows param *)
Fixpoint short_rounds (t : text) (next : option text) (a : A) : round :=
  match t with
  | [] => Again a
  | c :: r =>
      let '(optarg, detached) := match r with [] => (next, true) | _ => (Some r, false) end in
      match treat (find_short usage c) (c :: r) optarg detached a with
      | Again a' => short_rounds r next a'
      | e => e
      end
  end.

(** :1821-1984: one element of argv that is neither "-" nor "--" and begins with '-'; [next] is args[1] *)
Definition element (param : text) (next : option text) (a : A) : round :=
  match param with
  | _ :: t =>
      match t with
      | c :: n =>
          if Ascii.eqb c "-" then long_round (find_long usage min_abbr_len n) param n next a
          else if single_minus_longopt then
            match find_long usage min_abbr_len t with
            | Some d => long_round (Some d) param t next a
            | None => short_rounds t next a
            end
          else short_rounds t next a
      | [] => Again a
      end
  | [] => Again a
  end.

(** What the call of workhorse leaves behind: whether it returned true, the array, where
    args - nonops is when it calls finished, and the state of the action.  *)
Inductive result :=
| Finished (array : list text) (start : nat) (a : A)
| Failed (array : list text) (a : A)
| Out_of_bounds
| Out_of_fuel.

(** :1796 *)
Definition is_option (param : text) : bool :=
  match param with c :: _ :: _ => Ascii.eqb c "-" | _ => false end.
(** :1816 *)
Definition is_terminator (param : text) : bool :=
  match param with [c; d] => Ascii.eqb c "-" && Ascii.eqb d "-" | _ => false end.

(** :1769-2001.  [pos] is args - argv; numargs is what remains of the array. *)
Fixpoint work (gnu : bool) (fuel : nat) (array : list text) (pos nonops : nat) (a : A) : result :=
  match fuel with
  | 0 => Out_of_fuel
  | S f =>
      match nth_error array pos with
      | None => Finished array (pos - nonops) a
      | Some param =>
          if negb (is_option param) then
            if gnu then work gnu f array (S pos) (S nonops) a
            else Finished array (pos - nonops) a
          else if is_terminator param then Finished (shift array pos nonops) (S pos - nonops) a
          else
            match element param (nth_error array (S pos)) a with
            | Again a' | Taken false a' => work gnu f (shift array pos nonops) (S pos) nonops a'
            | Taken true a' => work gnu f (shift (shift array pos nonops) (S pos) nonops) (S (S pos)) nonops a'
            | Fatal false a' => Failed array a'
            | Fatal true a' => Failed (shift array pos nonops) a'
            | Out => Out_of_bounds
            end
      end
  end.

Definition workhorse (gnu : bool) (argv : list text) (a : A) : result :=
  work gnu (S (length argv)) argv 0 0 a.

End Workhorse.

(** * Stats *)

(** CountOptionsAction::perform, :1632-1641 *)
Definition count_option (n : N) (o : opt) : answer N :=
  if (n =? 0x7fffffff)%N then Refuse n else Next ((n + 1) mod 2 ^ 32)%N.

Record stats := { buffer_max : N; options_max : N }.
(** :1009-1013 *)
Definition no_stats : stats := {| buffer_max := 1; options_max := 1 |}.

(** :1753-1763 *)
Definition add_index (m : N) (d : descriptor) : N :=
  let i := ((index d + 1) mod 2 ^ 32)%N in
  if (m <=? i)%N then ((i + 1) mod 2 ^ 32)%N else m.

(** Stats::add, :1745-1767, and what it leaves in argv *)
Definition add (gnu : bool) (usage : list descriptor) (min_abbr_len : Z) (single_minus_longopt : bool)
  (argv : list text) (st : stats) : stats * list text :=
  let om := fold_left add_index usage (options_max st) in
  match workhorse N count_option usage single_minus_longopt min_abbr_len gnu argv (buffer_max st) with
  | Finished _ array _ n | Failed _ array n => ({| buffer_max := n; options_max := om |}, array)
  | _ => (st, argv)
  end.

(** * The lists of options *)

(** An Option of options[] or of buffer[], and a link to one with its tag, :445-515 *)
Inductive place := O (i : nat) | B (i : nat).
Record link := { tagged : bool; to : place }.
Record cell := { content : option opt; next_ : link; prev_ : link }.
Record memory := { options : list cell; buffer : list cell }.

Definition fetch (m : memory) (p : place) : option cell :=
  match p with O i => nth_error (options m) i | B i => nth_error (buffer m) i end.
Fixpoint replace (l : list cell) (i : nat) (c : cell) : list cell :=
  match l, i with
  | _ :: r, 0 => c :: r
  | x :: r, S j => x :: replace r j c
  | [], _ => []
  end.
Definition write (m : memory) (p : place) (c : cell) : memory :=
  match p with
  | O i => {| options := replace (options m) i c; buffer := buffer m |}
  | B i => {| options := options m; buffer := replace (buffer m) i c |}
  end.

(** init, :853-880, of the Option at [p] *)
Definition self (p : place) : link := {| tagged := true; to := p |}.
Definition plain (p : place) : link := {| tagged := false; to := p |}.
Definition single (p : place) (o : option opt) : cell := {| content := o; next_ := self p; prev_ := self p |}.

(** first, :613-621; the fuel is the number of Options there are *)
Fixpoint first_from (fuel : nat) (m : memory) (p : place) : option place :=
  match fuel with
  | 0 => None
  | S f =>
      match fetch m p with
      | Some c => if tagged (prev_ c) then Some p else first_from f m (to (prev_ c))
      | None => None
      end
  end.
Definition size (m : memory) : nat := length (options m) + length (buffer m).
Definition first (m : memory) (p : place) : option place := first_from (size m) m p.
(** last, :647-650 *)
Definition last (m : memory) (p : place) : option place :=
  match first m p with
  | Some f => option_map (fun c => to (prev_ c)) (fetch m f)
  | None => None
  end.
(** next, :695-698, and prev, :667-670 *)
Definition next (m : memory) (p : place) : option place :=
  match fetch m p with Some c => if tagged (next_ c) then None else Some (to (next_ c)) | None => None end.
Definition prev (m : memory) (p : place) : option place :=
  match fetch m p with Some c => if tagged (prev_ c) then None else Some (to (prev_ c)) | None => None end.
(** count, :564-574 *)
Fixpoint count_from (fuel : nat) (m : memory) (p : place) (c : nat) : option nat :=
  match fuel with
  | 0 => None
  | S f =>
      match next m p with
      | None => Some c
      | Some q => count_from f m q (S c)
      end
  end.
Definition count (m : memory) (p : place) : option nat :=
  match fetch m p, first m p with
  | Some c, Some f => count_from (size m) m f (match content c with Some _ => 1 | None => 0 end)
  | _, _ => None
  end.

Definition set_next (l : link) (c : cell) : cell := {| content := content c; next_ := l; prev_ := prev_ c |}.
Definition set_prev (l : link) (c : cell) : cell := {| content := content c; next_ := next_ c; prev_ := l |}.
Definition change (m : memory) (p : place) (f : cell -> cell) : memory :=
  match fetch m p with Some c => write m p (f c) | None => m end.
(** append, :738-747 *)
Definition append (m : memory) (at_ new_last : place) : option memory :=
  match last m at_, first m at_ with
  | Some p, Some f =>
      let m1 := change m p (set_next (plain new_last)) in
      let m2 := change m1 new_last (set_prev (plain p)) in
      let m3 := change m2 new_last (set_next (self f)) in
      Some (change m3 f (set_prev (self new_last)))
  | _, _ => None
  end.

(** * Parser *)

(** :1162-1180 with the arrays given to parse *)
Record store := { mem : memory; op_count : nat }.

(** The first slot of the buffer that is empty, :1680-1688.  [bufmax] is [None] for negative ones:
    the loop then leaves the buffer if all of its slots are used. *)
Fixpoint used (cs : list cell) : nat :=
  match cs with
  | c :: r => match content c with Some _ => S (used r) | None => 0 end
  | [] => 0
  end.
Definition first_empty (m : memory) (bufmax : option nat) : option nat :=
  let u := used (buffer m) in
  match bufmax with
  | Some b => if b <=? u then Some b else if u <? length (buffer m) then Some u else None
  | None => if u <? length (buffer m) then Some u else None
  end.

(** StoreOptionAction::perform, :1691-1712.  The conversion of desc->index to int makes it negative
    from 2^31 on. *)
Definition store_option (bufmax : option nat) (st : store) (o : opt) : answer store :=
  let n := op_count st in
  if match bufmax with Some b => n <? b | None => true end then
    if (N.of_nat n =? 0x7fffffff)%N then Refuse st
    else
      let i := index (desc o) in
      if (n <? length (buffer (mem st))) && (i <? 2 ^ 31)%N && (N.to_nat i <? length (options (mem st))) then
        let m := write (mem st) (B n) (single (B n) (Some o)) in
        let i := N.to_nat i in
        match option_map content (fetch m (O i)) with
        | Some (Some _) =>
            match append m (O i) (B n) with
            | Some m' => Next {| mem := m'; op_count := S n |}
            | None => Overrun
            end
        | _ => Next {| mem := write m (O i) (single (O i) (Some o)); op_count := S n |}
        end
      else Overrun
  else Next st.

Record parser := { arrays : memory; optionsCount : nat; nonOptions : list text; error : bool }.

(** parse, :1730-1743, with finished, :1714-1726, and what it leaves in argv *)
Definition parse (gnu : bool) (usage : list descriptor) (min_abbr_len : Z) (single_minus_longopt : bool)
  (bufmax : option nat) (argv : list text) (ps : parser) : option (parser * list text) :=
  match first_empty (arrays ps) bufmax with
  | None => None
  | Some n =>
      match workhorse store (store_option bufmax) usage single_minus_longopt min_abbr_len gnu argv
              {| mem := arrays ps; op_count := n |} with
      | Finished _ array start st =>
          let nonop := skipn start array in
          Some ({| arrays := mem st; optionsCount := op_count st;
                   nonOptions := match nonop with [] => nonOptions ps | _ => nonop end; error := false |}, array)
      | Failed _ array st =>
          Some ({| arrays := mem st; optionsCount := op_count st; nonOptions := nonOptions ps; error := true |}, array)
      | _ => None
      end
  end.

(** Option options[o], buffer[b]; with the default constructor, :777-784, and Parser(), :1180-1187 *)
Definition empty_arrays (o b : nat) : memory :=
  {| options := map (fun i => single (O i) None) (seq 0 o); buffer := map (fun i => single (B i) None) (seq 0 b) |}.
Definition new_parser (o b : nat) : parser :=
  {| arrays := empty_arrays o b; optionsCount := 0; nonOptions := []; error := false |}.
