(** What reading a command line means (C111-C116). *)
From Coq Require Export Permutation.
From Verif Require Export OptParser_model.

(** * Names *)

(** [n] is [p], possibly followed by '=' and a value *)
Definition stem (n p : text) (v : option text) : Prop :=
  ~ In "="%char p /\ n = match v with Some x => p ++ "="%char :: x | None => p end.

Definition is_first {X} (P : X -> Prop) (l : list X) (x : X) : Prop :=
  exists a b, l = a ++ x :: b /\ P x /\ Forall (fun y => ~ P y) a.
Definition is_only {X} (P : X -> Prop) (l : list X) (x : X) : Prop :=
  exists a b, l = a ++ x :: b /\ P x /\ Forall (fun y => ~ P y) (a ++ b).

Definition sane (usage : list descriptor) : Prop := Forall (fun d => ~ In "="%char (longopt d)) usage.

Definition long_name (p : text) (d : descriptor) : Prop := longopt d = p.
Definition abbreviation (min : Z) (p : text) (d : descriptor) : Prop :=
  (0 < min <= Z.of_nat (length p))%Z /\ exists q, longopt d = p ++ q.
Definition short_name (c : ascii) (d : descriptor) : Prop := In c (shortopt d).
Definition dummy (d : descriptor) : Prop := shortopt d = [] /\ longopt d = [].

(** [p] is the name of [d]: the first descriptor of that name, or the only one it abbreviates *)
Definition names (usage : list descriptor) (min : Z) (p : text) (d : descriptor) : Prop :=
  is_first (long_name p) usage d \/
  Forall (fun e => ~ long_name p e) usage /\ is_only (abbreviation min p) usage d.
Definition nameless (usage : list descriptor) (min : Z) (p : text) : Prop := forall d, ~ names usage min p d.

(** * One element of the command line *)

Section Reading.
Variable usage : list descriptor.
Variable min : Z.
Variable single_minus : bool.

(** the descriptor used for an unknown option, if there is one *)
Definition unknown (d : option descriptor) : Prop :=
  match d with Some d => is_first dummy usage d | None => Forall (fun e => ~ dummy e) usage end.
(** the descriptor of the long option [p], and of the character [c] *)
Definition for_long (p : text) (d : option descriptor) : Prop :=
  (exists e, names usage min p e /\ d = Some e) \/ nameless usage min p /\ unknown d.
Definition for_short (c : ascii) (d : option descriptor) : Prop :=
  (exists e, is_first (short_name c) usage e /\ d = Some e) \/ Forall (fun e => ~ short_name c e) usage /\ unknown d.

(** What is read for a descriptor: at most one option, and whether its argument was accepted.  The
    check function may also forbid the option. *)
Inductive verdict := Read (os : list opt) (accepted : bool) | Illegal.
Definition judged (d : option descriptor) (n : text) (given : option text) : verdict :=
  match d with
  | None => Read [] false
  | Some d =>
      match check_arg d n given with
      | ARG_ILLEGAL => Illegal
      | ARG_OK => Read [{| desc := d; name := n; arg := given |}] true
      | _ => Read [{| desc := d; name := n; arg := None |}] false
      end
  end.

(** the options of a group of characters; [skip]: the last one has taken the next element *)
Inductive group (next : option text) : text -> list opt -> bool -> Prop :=
| group_end : group next [] [] false
| group_more c r d os os' k : for_short c d -> r <> [] -> judged d (c :: r) (Some r) = Read os false ->
    group next r os' k -> group next (c :: r) (os ++ os') k
| group_attached c r d os : for_short c d -> r <> [] -> judged d (c :: r) (Some r) = Read os true ->
    group next (c :: r) os false
| group_last c d os b : for_short c d -> judged d [c] next = Read os b ->
    group next [c] os (b && if next then true else false).

(** the same, up to the character that is not legal *)
Inductive bad_group (next : option text) : text -> list opt -> Prop :=
| bad_more c r d os os' : for_short c d -> r <> [] -> judged d (c :: r) (Some r) = Read os false ->
    bad_group next r os' -> bad_group next (c :: r) (os ++ os')
| bad_attached c r d : for_short c d -> r <> [] -> judged d (c :: r) (Some r) = Illegal -> bad_group next (c :: r) []
| bad_last c d : for_short c d -> judged d [c] next = Illegal -> bad_group next [c] [].

(** [t] is long option [p] with descriptor [d] and value [v] *)
Definition long_form (t p : text) (v : option text) (d : option descriptor) : Prop :=
  exists n, stem n p v /\
    (t = "-"%char :: "-"%char :: n /\ for_long p d \/
     exists e, single_minus = true /\ t = "-"%char :: n /\ hd "-"%char n <> "-"%char /\ names usage min p e /\ d = Some e).
(** [t] is the group of characters [n] *)
Definition group_form (t n : text) : Prop :=
  t = "-"%char :: n /\ n <> [] /\ hd "-"%char n <> "-"%char /\
  (single_minus = true -> forall p v, stem n p v -> nameless usage min p).

Inductive options_of (next : option text) : text -> list opt -> bool -> Prop :=
| long_attached t p v d os b : long_form t p (Some v) d -> judged d t (Some v) = Read os b -> options_of next t os false
| long_detached t p d os b : long_form t p None d -> judged d t next = Read os b ->
    options_of next t os (b && if next then true else false)
| short_group t n os k : group_form t n -> group next n os k -> options_of next t os k.
Inductive bad_option (next : option text) : text -> list opt -> Prop :=
| bad_long_attached t p v d : long_form t p (Some v) d -> judged d t (Some v) = Illegal -> bad_option next t []
| bad_long_detached t p d : long_form t p None d -> judged d t next = Illegal -> bad_option next t []
| bad_short_group t n os : group_form t n -> bad_group next n os -> bad_option next t os.

(** * A command line *)

Inductive role := Option_ | Argument | Terminator | Operand | Unread.

(** begins with '-' and is longer *)
Definition looks_like_option (t : text) : Prop := exists c r, t = "-"%char :: c :: r.
Definition minus_minus : text := s "--".
Definition all_of (k : role) (ts : list text) : list (text * role) := map (fun t => (t, k)) ts.

(** [reading gnu line os ok]: the elements of the command line with their roles, the options in
    the order of the line, and whether all of them are legal *)
Inductive reading (gnu : bool) : list (text * role) -> list opt -> bool -> Prop :=
| read_end : reading gnu [] [] true
| read_operand t r os ok : gnu = true -> ~ looks_like_option t -> reading gnu r os ok ->
    reading gnu ((t, Operand) :: r) os ok
| read_posix t r : gnu = false -> ~ looks_like_option t -> reading gnu (all_of Operand (t :: r)) [] true
| read_terminator r : reading gnu ((minus_minus, Terminator) :: all_of Operand r) [] true
| read_option t r os os' ok : looks_like_option t -> t <> minus_minus ->
    options_of (hd_error (map fst r)) t os false -> reading gnu r os' ok ->
    reading gnu ((t, Option_) :: r) (os ++ os') ok
| read_argument t v r os os' ok : looks_like_option t -> t <> minus_minus ->
    options_of (Some v) t os true -> reading gnu r os' ok ->
    reading gnu ((t, Option_) :: (v, Argument) :: r) (os ++ os') ok
| read_illegal t r os : looks_like_option t -> t <> minus_minus -> bad_option (hd_error r) t os ->
    reading gnu (all_of Unread (t :: r)) os false.

End Reading.

Definition role_eqb (a b : role) : bool :=
  match a, b with
  | Option_, Option_ | Argument, Argument | Terminator, Terminator | Operand, Operand | Unread, Unread => true
  | _, _ => false
  end.
Definition with_role (k : role) (line : list (text * role)) : list text := map fst (filter (fun x => role_eqb (snd x) k) line).
Definition operands := with_role Operand.
Definition unread := with_role Unread.
(** options, their arguments and "--", in the order of the line *)
Definition others (line : list (text * role)) : list text :=
  map fst (filter (fun x => negb (role_eqb (snd x) Operand) && negb (role_eqb (snd x) Unread)) line).

(** * The result *)

(** the options in the buffer *)
Definition stored (m : memory) : list opt := flat_map (fun c => match content c with Some o => [o] | None => [] end) (buffer m).

(** [for (Option* o = options[i]; o; o = o->next())], backwards with prev, and what is there *)
Fixpoint follow (step : place -> option place) (fuel : nat) (p : place) : list place :=
  match fuel with
  | 0 => []
  | S f => p :: match step p with Some q => follow step f q | None => [] end
  end.
Definition option_at (m : memory) (p : place) : list opt :=
  match fetch m p with Some c => match content c with Some o => [o] | None => [] end | None => [] end.
Definition list_at (m : memory) (i : nat) : list opt :=
  match option_at m (O i) with [] => [] | _ => flat_map (option_at m) (follow (next m) (size m) (O i)) end.

(** the options of an index *)
Definition with_index (i : nat) (os : list opt) : list opt := filter (fun o => N.to_nat (index (desc o)) =? i) os.

(** the Options on the list of index [i] *)
Definition chain (m : memory) (i : nat) : list place :=
  match option_at m (O i) with [] => [] | _ => follow (next m) (size m) (O i) end.

(** parsers after any number of calls of parse, with arrays of [o] and [b] Options *)
Inductive built (o b : nat) : parser -> Prop :=
| built_new : built o b (new_parser o b)
| built_parse gnu usage min single_minus bufmax argv p p' argv' : built o b p ->
    parse gnu usage min single_minus bufmax argv p = Some (p', argv') -> built o b p'.
(** fewer than the greatest number of options that the code supports *)
Definition supported (b : nat) : Prop := (N.of_nat b < 0x7fffffff)%N.
(** what is kept of the options [os] if there are already [n] *)
Definition kept (bufmax : option nat) (n : nat) (os : list opt) : list opt :=
  match bufmax with Some b => firstn (b - n) os | None => os end.

(** the same options, apart from how they were written, non-options and error *)
Definition alike (p q : parser) : Prop :=
  map (fun o => (desc o, arg o)) (stored (arrays p)) = map (fun o => (desc o, arg o)) (stored (arrays q)) /\
  nonOptions p = nonOptions q /\ error p = error q.

(** * Sequences of command lines: Stats first, then Parser *)

(** [again_] is the flag gnu for the parser: it may be left out there if Stats had it. *)
Record call := { gnu_ : bool; again_ : bool; usage_ : list descriptor; min_ : Z; single_ : bool; argv_ : list text }.
Definition add_call (st : stats) (c : call) : stats * list text := add (gnu_ c) (usage_ c) (min_ c) (single_ c) (argv_ c) st.
Definition with_argv (c : call) (a : list text) : call :=
  {| gnu_ := gnu_ c; again_ := again_ c; usage_ := usage_ c; min_ := min_ c; single_ := single_ c; argv_ := a |}.
Definition parse_call (c : call) (p : parser) : option (parser * list text) :=
  parse (again_ c) (usage_ c) (min_ c) (single_ c) None (argv_ c) p.
(** The calls of add leave the arguments of each of them reordered. *)
Fixpoint add_all (st : stats) (cs : list call) : stats * list call :=
  match cs with
  | [] => (st, [])
  | c :: r =>
      let (st1, a) := add_call st c in
      let (st2, r') := add_all st1 r in
      (st2, with_argv c a :: r')
  end.
Fixpoint parse_all (p : parser) (cs : list call) : option parser :=
  match cs with
  | [] => Some p
  | c :: r => match parse_call c p with Some (p', _) => parse_all p' r | None => None end
  end.
(** A parser whose arrays have the sizes of the statistics. *)
Definition sized_parser (st : stats) : parser := new_parser (N.to_nat (options_max st)) (N.to_nat (buffer_max st)).

(** [n] is the name of an option to which nothing is attached: a character of a group of short options that is its last one, or
    an element that begins with - and has no = *)
Definition bare (n : text) : Prop := (exists c, n = [c]) \/ exists r, n = "-"%char :: r /\ ~ In "="%char r.
Definition ignores (k : arg_status) : Prop := k = ARG_NONE \/ k = ARG_IGNORE.
(** no option ignores some next elements and takes others *)
Definition steady (usage : list descriptor) : Prop :=
  forall d n x y, In d usage -> bare n -> check_arg d n (Some x) = ARG_OK -> ~ ignores (check_arg d n (Some y)).
(** every option either ignores the next element, or must have one and takes or forbids it *)
Definition clear_cut (usage : list descriptor) : Prop :=
  forall d n, In d usage -> bare n ->
    (forall a, ignores (check_arg d n a)) \/
    check_arg d n None = ARG_ILLEGAL /\ forall x, check_arg d n (Some x) = ARG_OK \/ check_arg d n (Some x) = ARG_ILLEGAL.

(** A parser that reorders was preceded by statistics that reorder. *)
Definition flags_match (c : call) : Prop := gnu_ c = false -> again_ c = false.
Definition small_indices (usage : list descriptor) : Prop := Forall (fun d => (index d < 2 ^ 31)%N) usage.
(** what the calls must be like so that the statistics suffice *)
Definition call_ok (c : call) : Prop := flags_match c /\ (gnu_ c = false \/ steady (usage_ c)) /\ small_indices (usage_ c).

(** Check functions of the manual: Required and Unknown, :922-929 and :916-920 *)
Definition Arg_Required (n : text) (a : option text) : arg_status :=
  match a with Some _ => ARG_OK | None => ARG_ILLEGAL end.
Definition Arg_Unknown (n : text) (a : option text) : arg_status := ARG_ILLEGAL.
(** the usual check functions *)
Definition usual (f : text -> option text -> arg_status) : Prop := f = Arg_None \/ f = Arg_Optional \/ f = Arg_Required \/ f = Arg_Unknown.
