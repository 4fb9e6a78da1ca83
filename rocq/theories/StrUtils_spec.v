(** Specifications of the string helpers, independent of the loops. *)
From Verif Require Export Str_spec.
From Verif Require Import Str.

(** [rewrites a b k t t']: [t'] results from [t] by [k] replacements, each of the
    then leftmost occurrence of [a] by [b] *)
Inductive rewrites (a b : str) : nat -> str -> str -> Prop :=
| rw_none : forall t, rewrites a b 0 t t
| rw_step : forall k t t' u v,
    leftmost t a u v -> rewrites a b k (u ++ b ++ v) t' -> rewrites a b (S k) t t'.

(** [splits d t l]: [l] are the pieces obtained by cutting [t] at each
    non-overlapping occurrence of [d], from left to right *)
Inductive splits (d : str) : str -> list str -> Prop :=
| sp_last : forall t, ~ contains t d -> splits d t [t]
| sp_cut : forall t u v l, leftmost t d u v -> splits d v l -> splits d t (u :: l).

(** pieces with a given separator after each piece but the last *)
Fixpoint interleave (pieces seps : list str) : str :=
  match pieces, seps with
  | p :: ps, q :: qs => p ++ q ++ interleave ps qs
  | p :: _, [] => p
  | [], _ => []
  end.

(** the same letter in the other case, by enumeration of the alphabet *)
Definition lower_letters : str := s "abcdefghijklmnopqrstuvwxyz".
Definition upper_letters : str := s "ABCDEFGHIJKLMNOPQRSTUVWXYZ".
Definition is_lower_of (l u : ascii) : Prop :=
  exists i, nth_error lower_letters i = Some l /\ nth_error upper_letters i = Some u.

(** [l] is [t] cut at delimiters taken from [ds], until no piece contains any of them *)
Definition good_split (ds : list str) (t : str) (l : list str) : Prop :=
  l <> [] /\
  (exists seps, length l = S (length seps) /\ Forall (fun q => In q ds) seps /\ interleave l seps = t) /\
  Forall (fun p => forall d, In d ds -> ~ contains p d) l.

