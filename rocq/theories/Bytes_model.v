(** Model of [to_bytes] and [from_bytes] (cpp_utils/src/cpp/utils.cpp:126-228).  The regular
    expression, std::stod and the formatting of numbers are those of the "C" locale; double is
    binary64 (Float_model.v). *)
From Coq Require Import ZArith NArith QArith Qround.
From Verif Require Import Str Outcome StrUtils_model Math_model Float_model.
Local Open Scope Z_scope.

(** character classes [\d], [\s] and [a-zA-Z] of the regular expression, utils.cpp:144 *)
Definition digit_class (c : ascii) : bool := let n := N_of_ascii c in ((48 <=? n) && (n <=? 57))%N.
Definition space_class (c : ascii) : bool := let n := N_of_ascii c in ((n =? 32) || ((9 <=? n) && (n <=? 13)))%N.
Definition alpha_class (c : ascii) : bool :=
  let n := N_of_ascii c in (((97 <=? n) && (n <=? 122)) || ((65 <=? n) && (n <=? 90)))%N.

(** the longest prefix of characters of a class, and the rest: the classes next to each other in
    the regular expression have no character in common, so that no shorter prefix can match *)
Fixpoint span (p : ascii -> bool) (t : str) : str * str :=
  match t with
  | c :: t' => if p c then let '(a, b) := span p t' in (c :: a, b) else ([], t)
  | [] => ([], [])
  end.

Definition is_nil (t : str) : bool := match t with [] => true | _ => false end.

(** utils.cpp:144-151: the digits before the point, those after it and the unit; [None] when
    [regex_match] fails *)
Definition match_quantity (t : str) : option (str * str * str) :=
  let '(whole, r1) := span digit_class t in
  let '(part, r2) :=
    match r1 with
    | c :: r => if Ascii.eqb c "."%char then let '(p, r') := span digit_class r in if is_nil p then ([], r1) else (p, r') else ([], r1)
    | [] => ([], [])
    end in
  let '(_, r3) := span space_class r2 in
  let '(unit_str, r4) := span alpha_class r3 in
  if is_nil whole || is_nil unit_str || negb (is_nil r4) then None else Some (whole, part, unit_str).

(** the number a sequence of digits stands for *)
Definition digits_value (t : str) : Z := fold_left (fun n c => 10 * n + (Z.of_N (N_of_ascii c) - 48)) t 0.

(** the argument of std::stod, utils.cpp:154-155 *)
Definition decimal_value (whole part : str) : Q := inject_Z (digits_value (whole ++ part)) / inject_Z (10 ^ Z.of_nat (List.length part)).

(** utils.cpp:129-141 *)
Definition units : list (str * Z) :=
  [(s "B", 1); (s "KB", 1000); (s "MB", 1000 * 1000); (s "GB", 1000 * 1000 * 1000);
   (s "TB", 1000 * 1000 * 1000 * 1000); (s "PB", 1000 * 1000 * 1000 * 1000 * 1000);
   (s "KIB", 1024); (s "MIB", 1024 * 1024); (s "GIB", 1024 * 1024 * 1024);
   (s "TIB", 1024 * 1024 * 1024 * 1024); (s "PIB", 1024 * 1024 * 1024 * 1024 * 1024)].

Fixpoint find_unit (l : list (str * Z)) (name : str) : option Z :=
  match l with
  | (n, f) :: l' => if str_eqb n name then Some f else find_unit l' name
  | [] => None
  end.

Definition u64_max : Z := 2 ^ 64 - 1.

(** utils.cpp:126-180.  The factor and the limit are converted to double (the usual arithmetic
    conversions) in the comparison and in the product. *)
Definition to_bytes (input : str) : outcome Z :=
  match match_quantity input with
  | None => Throw InvalidArgument
  | Some (whole, part, unit_str) =>
      match stod (decimal_value whole part) with
      | None => Throw OutOfRange
      | Some number =>
          match find_unit units (to_uppercase unit_str) with
          | None => Throw InvalidArgument
          | Some unit =>
              if negb (Qle_bool number (of_u64 (u64_max / unit))) then Throw InvalidArgument
              else match to_u64 (rnd (number * of_u64 unit)) with
                   | Some bytes => Ret bytes
                   | None => UB
                   end
          end
      end
  end.

(** utils.cpp:190-197, in the order of std::map *)
Definition print_units : list (Z * str) :=
  [(1, s "B"); (1000, s "KB"); (1000 * 1000, s "MB"); (1000 * 1000 * 1000, s "GB");
   (1000 * 1000 * 1000 * 1000, s "TB"); (1000 * 1000 * 1000 * 1000 * 1000, s "PB")].

(** utils.cpp:200-207: the entry before the first one whose factor is greater than [bytes] *)
Fixpoint unit_before (bytes : Z) (last : Z * str) (l : list (Z * str)) : Z * str :=
  match l with
  | u :: l' => if bytes <? fst u then last else unit_before bytes u l'
  | [] => last
  end.

(** [std::fixed << std::setprecision(2)]: the exact value of the double, rounded to the nearest
    multiple of 0.01 (to the even one of two) *)
Definition fixed2 (x : Q) : str :=
  let n := Z.to_N (nearest (x * 100)%Q) in
  dec (n / 100) ++ ["."%char; digit ((n / 10) mod 10); digit (n mod 10)].

(** utils.cpp:182-228 *)
Definition from_bytes (bytes : Z) : str :=
  if bytes =? 0 then s "0B"
  else
    let '(factor, unit) := unit_before bytes (0, []) print_units in
    let number_double := rnd (of_u64 bytes / of_u64 factor) in
    let number_int := Qfloor number_double in
    let difference := rnd (number_double - of_u64 number_int) in
    (if negb (Qle_bool (rnd (1 # 100)) difference) then dec (Z.to_N number_int) else fixed2 number_double) ++ unit.
