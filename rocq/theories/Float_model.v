(** IEEE 754 binary64 numbers that are not negative, as C++ uses them on common platforms:
    a double is the rational number it stands for; an operation is the operation on rational
    numbers followed by [rnd], rounding to nearest, ties to even.  Infinity is [None]. *)
From Coq Require Import ZArith QArith Qround Qpower Bool.
Local Open Scope Q_scope.

(** the integer nearest to [q], the even one of two *)
Definition nearest (q : Q) : Z :=
  let f := Qfloor q in
  match Qcompare (q - inject_Z f) (1 # 2) with
  | Lt => f
  | Gt => (f + 1)%Z
  | Eq => if Z.even f then f else (f + 1)%Z
  end.

(** the [e] such that 2^(e+52) <= x < 2^(e+53), for positive [x] *)
Definition expo (x : Q) : Z :=
  let e := (Z.log2 (Qnum x) - Z.log2 (Zpos (Qden x)) - 53)%Z in
  if Qle_bool (2 ^ (e + 53)) x then (e + 1)%Z else e.

(** the last place of the double nearest to [x]: that of subnormal numbers is 2^-1074 *)
Definition place (x : Q) : Z := Z.max (expo x) (-1074).

Definition rnd (x : Q) : Q :=
  if Qle_bool x 0 then 0 else Qred (inject_Z (nearest (Qred (x / 2 ^ place x))) * 2 ^ place x).

(** the result of an operation *)
Definition double (x : Q) : option Q := let r := rnd x in if Qle_bool (2 ^ 1024) r then None else Some r.

(** strtod in the C locale, with what std::stod makes of errno: [None] for out_of_range.  The
    range error of numbers below 2^-1022 that are not doubles is that of glibc. *)
Definition stod (x : Q) : option Q :=
  if Qle_bool (2 ^ (-1022)) x || Qeq_bool (rnd x) x then double x else None.

(** conversion of an unsigned 64-bit integer *)
Definition of_u64 (n : Z) : Q := rnd (inject_Z n).
(** conversion to an unsigned 64-bit integer: [None] is undefined behaviour *)
Definition to_u64 (x : Q) : option Z := let z := Qfloor x in if (z <? 2 ^ 64)%Z then Some z else None.
