(** Specification of C12 and C13: quantities of bytes as text. *)
From Coq Require Import ZArith NArith QArith.
From Verif Require Import Str Math_spec.
Local Open Scope Z_scope.

Definition is_blank (c : ascii) : Prop := (N_of_ascii c = 32 \/ 9 <= N_of_ascii c <= 13)%N.
Definition is_letter (c : ascii) : Prop := (65 <= N_of_ascii c <= 90 \/ 97 <= N_of_ascii c <= 122)%N.

(** [t] is a number, with or without decimals, blanks, and the name of a unit *)
Definition written (t whole part blanks unit : str) : Prop :=
  t = whole ++ (match part with [] => [] | _ => "."%char :: part end) ++ blanks ++ unit /\
  whole <> [] /\ Forall is_digit whole /\ Forall is_digit part /\ Forall is_blank blanks /\
  unit <> [] /\ Forall is_letter unit.
Definition well_formed (t : str) : Prop := exists whole part blanks unit, written t whole part blanks unit.

(** the number whose decimal notation is [whole].[part] *)
Definition amount (whole part : str) : Q :=
  inject_Z (Z.of_N (number_of (whole ++ part))) / inject_Z (10 ^ Z.of_nat (List.length part)).

(** the units: B, and five prefixes, for powers of 1000 and (with an i) of 1024 *)
Definition prefixes : list ascii := ["K"; "M"; "G"; "T"; "P"]%char.
Inductive unit_size : str -> Z -> Prop :=
| Bytes : unit_size (s "B") 1
| Decimal i c : nth_error prefixes i = Some c -> unit_size [c; "B"%char] (1000 ^ (1 + Z.of_nat i))
| Binary i c : nth_error prefixes i = Some c -> unit_size [c; "i"%char; "B"%char] (1024 ^ (1 + Z.of_nat i)).

(** letters that differ only in case *)
Definition same_letter (a b : ascii) : Prop :=
  a = b \/ (is_letter a /\ is_letter b /\ (N_of_ascii a + 32 = N_of_ascii b \/ N_of_ascii b + 32 = N_of_ascii a)%N).
(** the unit [name], in upper or lower case, has [f] bytes *)
Definition unit_named (name : str) (f : Z) : Prop := exists n, unit_size n f /\ Forall2 same_letter n name.

(** numbers of 53 binary digits: they are doubles *)
Definition precise (v : Q) : Prop := exists m k, 0 <= m <= 2 ^ 53 /\ -1074 <= k /\ (v == inject_Z m * 2 ^ k)%Q.

(** numbers that are zero or not smaller than the smallest normal double *)
Definition not_tiny (v : Q) : Prop := (v == 0 \/ 2 ^ (-1022) <= v)%Q.

(** the largest decimal unit that is not above [n] *)
Definition best_unit (n : Z) (unit : str) (f : Z) : Prop :=
  unit_size unit f /\ (exists i, f = 1000 ^ i /\ 0 <= i) /\ f <= n /\
  (forall u' f', unit_size u' f' -> (exists i, f' = 1000 ^ i /\ 0 <= i) -> f' <= n -> f' <= f).
