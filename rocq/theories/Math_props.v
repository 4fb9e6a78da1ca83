(** Properties C07, C08, C09, C10. *)
From Verif Require Import Str Outcome Math_model Math_spec Math_proofs.
Local Open Scope Z_scope.

(** *** C07 *)

Theorem C07_fast_module_is_mod : forall ndebug a b,
  in_u32 a -> in_u32 b -> b <> 0 -> fast_module ndebug a b = Ret (a mod b).
Proof. exact fast_module_spec. Qed.
Print Assumptions C07_fast_module_is_mod.

Example C07_fast_module_is_mod_nonvacuous :
  in_u32 4294967295 /\ in_u32 4096 /\ fast_module false 4294967295 4096 = Ret 4095.
Proof. unfold in_u32. repeat split; try reflexivity; lia. Qed.

Theorem C07_fast_division_is_div : forall ndebug a b,
  in_u32 a -> in_u32 b -> b <> 0 -> fast_division ndebug a b = Ret (a / b).
Proof. exact fast_division_spec. Qed.
Print Assumptions C07_fast_division_is_div.

Example C07_fast_division_is_div_nonvacuous :
  in_u32 4294967295 /\ in_u32 (2 ^ 31) /\ fast_division true 4294967295 (2 ^ 31) = Ret 1.
Proof. unfold in_u32. repeat split; try reflexivity; lia. Qed.

(** Divisor zero: assertion failure; without assertions undefined, except 0 by 0,
    which returns 0 and 1. *)
Theorem C07_zero_divisor : forall a, in_u32 a ->
  fast_module false a 0 = Abort /\ fast_division false a 0 = Abort /\
  (a <> 0 -> fast_module true a 0 = UB /\ fast_division true a 0 = UB) /\
  fast_module true 0 0 = Ret 0 /\ fast_division true 0 0 = Ret 1.
Proof. exact fast_zero_divisor. Qed.
Print Assumptions C07_zero_divisor.

Example C07_zero_divisor_nonvacuous : in_u32 7.
Proof. unfold in_u32. lia. Qed.

Theorem C07_is_power_of_2 : forall n, in_u32 n ->
  (is_power_of_2 n = true <-> exists k, 0 <= k /\ n = 2 ^ k).
Proof. exact is_power_of_2_iff. Qed.
Print Assumptions C07_is_power_of_2.

Theorem C07_is_even : forall n, is_even n = true <-> exists k, n = 2 * k.
Proof. exact is_even_iff. Qed.
Print Assumptions C07_is_even.

Example C07_is_power_of_2_nonvacuous :
  is_power_of_2 (2 ^ 31) = true /\ is_power_of_2 0 = false /\ is_power_of_2 6 = false /\ is_even 6 = true.
Proof. repeat split. Qed.

(** *** C08 *)

Theorem C08_fast_exponential : forall b e,
  in_u32 b -> in_u32 e -> fast_exponential b e = b ^ e mod 2 ^ 32.
Proof. exact fast_exponential_spec. Qed.
Print Assumptions C08_fast_exponential.

Example C08_fast_exponential_nonvacuous :
  in_u32 3 /\ in_u32 4294967295 /\ fast_exponential 3 21 = 3 ^ 21 mod 2 ^ 32 /\ 2 ^ 32 < 3 ^ 21.
Proof. unfold in_u32. repeat split; try reflexivity; lia. Qed.

Theorem C08_fast_exponential_exact : forall b e,
  in_u32 b -> in_u32 e -> b ^ e < 2 ^ 32 -> fast_exponential b e = b ^ e.
Proof. exact fast_exponential_exact. Qed.
Print Assumptions C08_fast_exponential_exact.

Example C08_fast_exponential_exact_nonvacuous : 10 ^ 9 < 2 ^ 32 /\ fast_exponential 10 9 = 1000000000.
Proof. split; [lia|reflexivity]. Qed.

(** *** C09 *)

(** The result is the sum of the progression modulo 2^31 (not 2^32). *)
Theorem C09_sum_modulo : forall lowest interval steps, in_u32 steps ->
  arithmetic_progression_sum lowest interval steps =
  progression lowest interval (Z.to_nat steps) mod 2 ^ 31.
Proof. exact progression_sum_spec. Qed.
Print Assumptions C09_sum_modulo.

(** Partial: exact when, and only when, the sum is below 2^31. *)
Theorem C09_sum_partial : forall lowest interval steps,
  in_u32 lowest -> in_u32 interval -> in_u32 steps ->
  (arithmetic_progression_sum lowest interval steps = progression lowest interval (Z.to_nat steps)
   <-> progression lowest interval (Z.to_nat steps) < 2 ^ 31).
Proof. exact progression_sum_exact. Qed.
Print Assumptions C09_sum_partial.

Example C09_sum_partial_nonvacuous :
  in_u32 5 /\ in_u32 3 /\ in_u32 4 /\ progression 5 3 4 = 5 + 8 + 11 + 14 /\
  arithmetic_progression_sum 5 3 4 = 38.
Proof. unfold in_u32. repeat split; try reflexivity; lia. Qed.

(** The full claim fails: a sum that fits in 32 bits is returned wrongly. *)
Theorem C09_sum_refuted : exists lowest interval steps,
  in_u32 lowest /\ in_u32 interval /\ in_u32 steps /\
  progression lowest interval (Z.to_nat steps) < 2 ^ 32 /\
  arithmetic_progression_sum lowest interval steps <> progression lowest interval (Z.to_nat steps).
Proof. exact progression_sum_refuted_lemma. Qed.
Print Assumptions C09_sum_refuted.

(** *** C10 *)

Theorem C10_format_nonnegative : forall v n, 0 <= v < 2 ^ 31 -> 0 <= n < 2 ^ 31 ->
  exists text, decimal (Z.to_N v) text /\
  number_trailing_zeros_format v n true = Ret (repeat "0"%char (Z.to_nat n - length text) ++ text).
Proof. exact format_nonneg_lemma. Qed.
Print Assumptions C10_format_nonnegative.

Example C10_format_nonnegative_nonvacuous : number_trailing_zeros_format 42 5 true = Ret (s "00042").
Proof. reflexivity. Qed.

(** the notation used in these statements determines the text *)
Theorem C10_decimal_unique : forall n a b, decimal n a -> decimal n b -> a = b.
Proof. exact decimal_unique. Qed.
Print Assumptions C10_decimal_unique.

(** For negative values the zeros come before the sign. *)
Theorem C10_format_negative : forall v n, - 2 ^ 31 <= v < 0 -> 0 <= n < 2 ^ 31 ->
  exists text, decimal (Z.to_N (- v)) text /\
  number_trailing_zeros_format v n true =
  Ret (repeat "0"%char (Z.to_nat n - (1 + length text)) ++ "-"%char :: text).
Proof. exact format_neg_lemma. Qed.
Print Assumptions C10_format_negative.

Example C10_format_negative_nonvacuous : number_trailing_zeros_format (-5) 4 true = Ret (s "00-5").
Proof. reflexivity. Qed.

(** Partial: with [allow_more_chars = false] the text is rejected exactly when it
    is too long, for non-negative values and 1 to 9 characters. *)
Theorem C10_format_checked_partial : forall v n text,
  0 <= v < 2 ^ 31 -> 1 <= n <= 9 -> decimal (Z.to_N v) text ->
  number_trailing_zeros_format v n false =
  if (Z.to_nat n <? length text)%nat then Throw PreconditionNotMet
  else Ret (repeat "0"%char (Z.to_nat n - length text) ++ text).
Proof. exact format_checked_lemma. Qed.
Print Assumptions C10_format_checked_partial.

Example C10_format_checked_partial_nonvacuous :
  number_trailing_zeros_format 999 3 false = Ret (s "999") /\
  number_trailing_zeros_format 1000 3 false = Throw PreconditionNotMet.
Proof. split; reflexivity. Qed.

(** With 10 characters and more the test is wrong: a text that fits is rejected. *)
Theorem C10_format_checked_refuted : exists v n text,
  in_int v /\ in_u32 n /\ decimal (Z.to_N v) text /\ (length text <= Z.to_nat n)%nat /\
  number_trailing_zeros_format v n false = Throw PreconditionNotMet.
Proof. exact format_checked_refuted_lemma. Qed.
Print Assumptions C10_format_checked_refuted.

(** With 32 characters and more it divides by zero, whatever the value. *)
Theorem C10_format_divides_by_zero : forall v n, 32 <= n < 2 ^ 32 ->
  number_trailing_zeros_format v n false = UB.
Proof. exact format_div_by_zero_lemma. Qed.
Print Assumptions C10_format_divides_by_zero.

(** Every negative value is rejected, whatever its length. *)
Theorem C10_format_negative_rejected : forall v n, - 2 ^ 31 <= v < 0 -> 0 <= n <= 9 ->
  number_trailing_zeros_format v n false = Throw PreconditionNotMet.
Proof. exact format_negative_rejected_lemma. Qed.
Print Assumptions C10_format_negative_rejected.

Example C10_format_negative_rejected_nonvacuous :
  number_trailing_zeros_format (-5) 4 false = Throw PreconditionNotMet /\ dec_Z (-5) = s "-5".
Proof. split; reflexivity. Qed.
