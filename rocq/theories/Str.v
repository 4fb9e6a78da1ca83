(** Byte strings and the [std::string] operations the library uses.

    [std::string] is a list of bytes; positions are [nat]; [std::string::npos]
    is [None].  The definitions below transcribe the C++ standard's contracts
    of [find], [rfind], [substr] and [replace] (they are not code of /repo;
    they are part of the trusted reading of the standard library). *)
From Coq Require Export String Ascii.
From Coq Require Export List Arith Lia Bool.
Export ListNotations.
Open Scope list_scope.

Definition str := list ascii.

(** string literals *)
Definition s (x : string) : str := list_ascii_of_string x.

Fixpoint str_eqb (a b : str) : bool :=
  match a, b with
  | [], [] => true
  | x :: a', y :: b' => Ascii.eqb x y && str_eqb a' b'
  | _, _ => false
  end.

(** [p] is a prefix of [t] (decidable) *)
Fixpoint prefixb (p t : str) : bool :=
  match p, t with
  | [], _ => true
  | x :: p', y :: t' => Ascii.eqb x y && prefixb p' t'
  | _ :: _, [] => false
  end.

(** [t.find(p)]: smallest position at which [p] occurs *)
Fixpoint sfind (p t : str) : option nat :=
  if prefixb p t then Some 0
  else match t with
       | [] => None
       | _ :: t' => option_map S (sfind p t')
       end.

(** [t.find(p, pos)] *)
Definition sfind_from (p t : str) (pos : nat) : option nat :=
  if pos <=? length t then option_map (Nat.add pos) (sfind p (skipn pos t))
  else None.

(** [t.rfind(p)]: largest position at which [p] occurs *)
Fixpoint srfind (p t : str) : option nat :=
  match t with
  | [] => if prefixb p [] then Some 0 else None
  | _ :: t' =>
      match srfind p t' with
      | Some i => Some (S i)
      | None => if prefixb p t then Some 0 else None
      end
  end.

(** [t.substr(pos, n)] for [pos <= t.size()] (otherwise C++ throws
    [out_of_range]; callers show the bound) *)
Definition substr (t : str) (pos n : nat) : str := firstn n (skipn pos t).

(** [t.substr(pos)] *)
Definition substr_to_end (t : str) (pos : nat) : str := skipn pos t.

(** [t.replace(pos, n, r)] for [pos + n <= t.size()] *)
Definition replace_at (t : str) (pos n : nat) (r : str) : str :=
  firstn pos t ++ r ++ skipn (pos + n) t.

(** number of times the byte [c] appears in [t] *)
Definition count (c : ascii) (t : str) : nat := count_occ ascii_dec t c.
