(** Model of cpp_utils/src/cpp/math/math_extension.cpp and of the number
    formatting of cpp_utils/src/cpp/utils.cpp.  [unsigned int] values are [Z] in
    [0, 2^32); every operation that can wrap is reduced explicitly. *)
From Coq Require Export ZArith NArith.
From Verif Require Export Str Outcome.
Local Open Scope Z_scope.

Definition u32 (z : Z) : Z := z mod 2 ^ 32.
Definition in_u32 (z : Z) : Prop := 0 <= z < 2 ^ 32.

(** math_extension.cpp:27-31 *)
Definition is_even (number : Z) : bool := Z.land number 1 =? 0.

(** math_extension.cpp:33-37 *)
Definition is_power_of_2 (number : Z) : bool :=
  if number =? 0 then false else Z.land number (u32 (number - 1)) =? 0.

(** math_extension.cpp:39-70.  [ndebug]: assertions compiled out. *)
Definition fast_module (ndebug : bool) (dividend divisor : Z) : outcome Z :=
  if negb ndebug && (divisor =? 0) then Abort
  else if dividend <? divisor then Ret dividend
  else if dividend =? divisor then Ret 0
  else if divisor =? 2 then Ret (Z.land dividend 1)
  else if is_power_of_2 divisor then Ret (Z.land dividend (u32 (divisor - 1)))
  else if divisor =? 0 then UB
  else Ret (dividend mod divisor).

(** math_extension.cpp:100-104: [while (divisor != 1)] *)
Fixpoint shift_loop (fuel : nat) (dividend divisor : Z) : outcome Z :=
  match fuel with
  | O => OutOfFuel
  | S fuel' =>
      if divisor =? 1 then Ret dividend
      else shift_loop fuel' (Z.shiftr dividend 1) (Z.shiftr divisor 1)
  end.

(** math_extension.cpp:72-112; the loop gets 33 iterations, the
    theorems show that they suffice *)
Definition fast_division (ndebug : bool) (dividend divisor : Z) : outcome Z :=
  if negb ndebug && (divisor =? 0) then Abort
  else if dividend <? divisor then Ret 0
  else if dividend =? divisor then Ret 1
  else if divisor =? 1 then Ret dividend
  else if divisor =? 2 then Ret (Z.shiftr dividend 1)
  else if is_power_of_2 divisor then shift_loop 33 dividend divisor
  else if divisor =? 0 then UB
  else Ret (dividend / divisor).

(** math_extension.cpp:114-120 *)
Definition arithmetic_progression_sum (lowest interval steps : Z) : Z :=
  u32 (u32 (u32 (2 * lowest) + u32 (u32 (steps - 1) * interval)) * steps) / 2.

(** math_extension.cpp:122-142.  Recursion on the binary digits of the exponent:
    [p~0] is the even branch (line 136); [p~1] the odd branch (line 140), whose
    recursive call has the even exponent [p~0] and so continues with line 136. *)
Fixpoint fast_exponential_pos (base : Z) (exponent : positive) : Z :=
  match exponent with
  | xH => base
  | xO p => fast_exponential_pos (u32 (base * base)) p
  | xI p => u32 (base * fast_exponential_pos (u32 (base * base)) p)
  end.

Definition fast_exponential (base exponent : Z) : Z :=
  match exponent with
  | Z0 => 1
  | Zpos p => fast_exponential_pos base p
  | Zneg _ => 0 (* not an unsigned value *)
  end.

(** [std::ostream << int]: decimal digits without leading zeros, preceded by '-'
    for negative values *)
Definition digit (n : N) : ascii := ascii_of_N (48 + n).

Fixpoint dec_loop (fuel : nat) (n : N) (acc : str) : str :=
  match fuel with
  | O => acc
  | S fuel' =>
      let acc' := digit (n mod 10) :: acc in
      if (n / 10 =? 0)%N then acc' else dec_loop fuel' (n / 10)%N acc'
  end.

Definition dec (n : N) : str := dec_loop (S (N.to_nat (N.log2 n))) n [].

Definition dec_Z (z : Z) : str :=
  if z <? 0 then "-"%char :: dec (Z.to_N (- z)) else dec (Z.to_N z).

(** [std::setw(w) << std::setfill('0')] with the default (right) adjustment *)
Definition fill_left (width : Z) (t : str) : str := repeat "0"%char (Z.to_nat width - length t) ++ t.

(** conversion of an [unsigned int] to the [int] parameter of [std::setw] *)
Definition to_int (z : Z) : Z := (z + 2 ^ 31) mod 2 ^ 32 - 2 ^ 31.

(** utils.cpp:301-319.  [value] is an [int], [n_chars] an [unsigned int]; in
    [value_to_print / fast_exponential(10, n_chars)] the [int] is converted to
    [unsigned int]. *)
Definition number_trailing_zeros_format (value n_chars : Z) (allow_more_chars : bool) : outcome str :=
  let text := Ret (fill_left (to_int n_chars) (dec_Z value)) in
  if allow_more_chars then text
  else
    let divisor := fast_exponential 10 n_chars in
    if divisor =? 0 then UB
    else if 0 <? u32 value / divisor then Throw PreconditionNotMet
    else text.
