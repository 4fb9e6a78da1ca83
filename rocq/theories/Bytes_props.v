(** Properties C12, C13. *)
From Coq Require Import ZArith NArith QArith Qabs.
From Verif Require Import Str Outcome Math_model Math_spec Math_proofs Bytes_model Bytes_spec Bytes_proofs.
Local Open Scope Z_scope.

(** *** C12 *)

(** The full claim is that a well formed text with a known unit gives the number it denotes, or
    the exception when it does not fit.  It holds for numbers that are doubles, when the number of
    bytes is a double too and the amount is not above the integer part of (2^64-1)/unit. *)
Theorem C12_exact_partial : forall t whole part blanks unit f n,
  written t whole part blanks unit -> unit_named unit f ->
  precise (amount whole part) -> (amount whole part <= inject_Z ((2 ^ 64 - 1) / f))%Q ->
  (amount whole part * inject_Z f == inject_Z n)%Q -> precise (inject_Z n) ->
  to_bytes t = Ret n.
Proof. exact exact_lemma. Qed.
Print Assumptions C12_exact_partial.

Example C12_exact_nonvacuous :
  written (s "2.50 mib") (s "2") (s "50") (s " ") (s "mib") /\ unit_named (s "mib") 1048576 /\
  precise (amount (s "2") (s "50")) /\ (amount (s "2") (s "50") <= inject_Z ((2 ^ 64 - 1) / 1048576))%Q /\
  (amount (s "2") (s "50") * inject_Z 1048576 == inject_Z 2621440)%Q /\ precise (inject_Z 2621440) /\
  to_bytes (s "2.50 mib") = Ret 2621440.
Proof.
  split; [apply written_ok; vm_compute; reflexivity|]. split; [apply named_ok; vm_compute; reflexivity|].
  split; [exists 5, (-1); repeat split; vm_compute; congruence|]. split; [vm_compute; discriminate|]. split; [vm_compute; reflexivity|].
  split; [exists 2621440, 0; repeat split; vm_compute; congruence|]. vm_compute. reflexivity.
Qed.

(** What is returned otherwise: within one byte and a relative error of 2^-51 *)
Theorem C12_near_partial : forall t whole part blanks unit f,
  written t whole part blanks unit -> unit_named unit f -> not_tiny (amount whole part) ->
  (amount whole part <= inject_Z ((2 ^ 64 - 1) / f))%Q -> (amount whole part * inject_Z f <= inject_Z (2 ^ 64 - 2 ^ 14))%Q ->
  exists n, to_bytes t = Ret n /\
    (amount whole part * inject_Z f * (1 - (1 # 2 ^ 52)) - 1 < inject_Z n)%Q /\
    (inject_Z n <= amount whole part * inject_Z f * (1 + (1 # 2 ^ 51)))%Q.
Proof. exact near_lemma. Qed.
Print Assumptions C12_near_partial.

Example C12_near_nonvacuous :
  written (s "1.001KB") (s "1") (s "001") [] (s "KB") /\ unit_named (s "KB") 1000 /\ not_tiny (amount (s "1") (s "001")) /\
  (amount (s "1") (s "001") <= inject_Z ((2 ^ 64 - 1) / 1000))%Q /\ (amount (s "1") (s "001") * inject_Z 1000 <= inject_Z (2 ^ 64 - 2 ^ 14))%Q /\
  to_bytes (s "1.001KB") = Ret 1000.
Proof.
  split; [apply written_ok; vm_compute; reflexivity|]. split; [apply named_ok; vm_compute; reflexivity|].
  split; [right; vm_compute; discriminate|]. split; [vm_compute; discriminate|]. split; [vm_compute; discriminate|]. vm_compute. reflexivity.
Qed.

(** 1.001 KB are 1001 bytes, but 1000 are returned *)
Theorem C12_exact_refuted : exists t whole part blanks unit f n,
  written t whole part blanks unit /\ unit_named unit f /\ (amount whole part * inject_Z f == inject_Z n)%Q /\ n < 2 ^ 64 /\
  to_bytes t = Ret (n - 1).
Proof.
  exists (s "1.001KB"), (s "1"), (s "001"), [], (s "KB"), 1000, 1001.
  split; [apply written_ok; vm_compute; reflexivity|]. split; [apply named_ok; vm_compute; reflexivity|].
  split; [vm_compute; reflexivity|]. split; [reflexivity|]. vm_compute. reflexivity.
Qed.
Print Assumptions C12_exact_refuted.

(** nor are integers beyond 2^53 exact *)
Theorem C12_integer_refuted : exists t whole blanks n,
  written t whole [] blanks (s "B") /\ (amount whole [] == inject_Z n)%Q /\ n < 2 ^ 64 /\ to_bytes t = Ret (n - 1).
Proof.
  exists (s "9007199254740993B"), (s "9007199254740993"), [], 9007199254740993.
  split; [apply written_ok; vm_compute; reflexivity|]. split; [vm_compute; reflexivity|]. split; [reflexivity|]. vm_compute. reflexivity.
Qed.
Print Assumptions C12_integer_refuted.

(** Amounts that fit are refused: 16383.5 PiB are 2^64 - 2^49 bytes *)
Theorem C12_fits_refuted : exists t whole part blanks unit f n,
  written t whole part blanks unit /\ unit_named unit f /\ (amount whole part * inject_Z f == inject_Z n)%Q /\ n = 2 ^ 64 - 2 ^ 49 /\
  to_bytes t = Throw InvalidArgument.
Proof.
  exists (s "16383.5PiB"), (s "16383"), (s "5"), [], (s "PiB"), (1024 ^ 5), (2 ^ 64 - 2 ^ 49).
  split; [apply written_ok; vm_compute; reflexivity|]. split; [apply named_ok; vm_compute; reflexivity|].
  split; [vm_compute; reflexivity|]. split; [reflexivity|]. vm_compute. reflexivity.
Qed.
Print Assumptions C12_fits_refuted.

(** Malformed texts *)
Theorem C12_malformed : forall t, ~ well_formed t -> to_bytes t = Throw InvalidArgument.
Proof. exact malformed_lemma. Qed.
Print Assumptions C12_malformed.

Example C12_malformed_nonvacuous : ~ well_formed (s "1.KB") /\ ~ well_formed (s "-1KB") /\ ~ well_formed (s "10") /\ ~ well_formed (s "1KB ").
Proof. repeat split; apply malformed_ok; vm_compute; reflexivity. Qed.

(** Unknown units: the exception is another one if the number is not one that std::stod takes *)
Theorem C12_unknown_unit_partial : forall t whole part blanks unit,
  written t whole part blanks unit -> (forall f, ~ unit_named unit f) ->
  to_bytes t = Throw InvalidArgument \/
  (to_bytes t = Throw OutOfRange /\ ~ (not_tiny (amount whole part) /\ (amount whole part < 2 ^ 1023)%Q)).
Proof. exact unknown_lemma. Qed.
Print Assumptions C12_unknown_unit_partial.

Example C12_unknown_unit_nonvacuous :
  written (s "5EB") (s "5") [] [] (s "EB") /\ (forall f, ~ unit_named (s "EB") f) /\ to_bytes (s "5EB") = Throw InvalidArgument.
Proof. split; [apply written_ok; vm_compute; reflexivity|]. split; [apply unknown_ok; vm_compute; reflexivity|]. vm_compute. reflexivity. Qed.

(** Amounts that do not fit *)
Theorem C12_too_large_partial : forall t whole part blanks unit f,
  written t whole part blanks unit -> unit_named unit f ->
  (inject_Z (2 ^ 64 + 2 ^ 14) <= amount whole part * inject_Z f)%Q -> (amount whole part < 2 ^ 1023)%Q ->
  to_bytes t = Throw InvalidArgument.
Proof. exact large_lemma. Qed.
Print Assumptions C12_too_large_partial.

Example C12_too_large_nonvacuous :
  written (s "18446744073709.6MB") (s "18446744073709") (s "6") [] (s "MB") /\ unit_named (s "MB") 1000000 /\
  (inject_Z (2 ^ 64 + 2 ^ 14) <= amount (s "18446744073709") (s "6") * inject_Z 1000000)%Q /\ (amount (s "18446744073709") (s "6") < 2 ^ 1023)%Q /\
  to_bytes (s "18446744073709.6MB") = Throw InvalidArgument.
Proof.
  split; [apply written_ok; vm_compute; reflexivity|]. split; [apply named_ok; vm_compute; reflexivity|].
  split; [vm_compute; discriminate|]. split; [vm_compute; reflexivity|]. vm_compute. reflexivity.
Qed.

(** Just above, the behaviour is undefined: 2^64 B, and 2^54 KiB *)
Theorem C12_too_large_refuted :
  (exists t whole blanks, written t whole [] blanks (s "B") /\ (amount whole [] == inject_Z (2 ^ 64))%Q /\ to_bytes t = UB) /\
  (exists t whole blanks, written t whole [] blanks (s "KiB") /\ (amount whole [] * inject_Z 1024 == inject_Z (2 ^ 64))%Q /\ to_bytes t = UB).
Proof.
  split.
  - exists (s "18446744073709551616B"), (s "18446744073709551616"), []. split; [apply written_ok; vm_compute; reflexivity|]. split; vm_compute; reflexivity.
  - exists (s "18014398509481984KiB"), (s "18014398509481984"), []. split; [apply written_ok; vm_compute; reflexivity|]. split; vm_compute; reflexivity.
Qed.
Print Assumptions C12_too_large_refuted.

(** even for an amount that fits: 2^64 - 1 bytes *)
Theorem C12_maximum_refuted : exists t whole blanks, written t whole [] blanks (s "B") /\ (amount whole [] == inject_Z (2 ^ 64 - 1))%Q /\ to_bytes t = UB.
Proof.
  exists (s "18446744073709551615B"), (s "18446744073709551615"), []. split; [apply written_ok; vm_compute; reflexivity|]. split; vm_compute; reflexivity.
Qed.
Print Assumptions C12_maximum_refuted.

(** The behaviour is undefined only with the units B, KB and KiB and amounts within 2^14 bytes of 2^64 *)
Theorem C12_undefined_only : forall t whole part blanks unit f,
  written t whole part blanks unit -> unit_named unit f -> to_bytes t = UB ->
  f <= 1024 /\ (inject_Z (2 ^ 64 - 2 ^ 14) <= amount whole part * inject_Z f)%Q /\ (amount whole part * inject_Z f <= inject_Z (2 ^ 64 + 2 ^ 14))%Q.
Proof. exact ub_lemma. Qed.
Print Assumptions C12_undefined_only.

Example C12_undefined_only_nonvacuous :
  written (s "18446744073709552KB") (s "18446744073709552") [] [] (s "KB") /\ unit_named (s "KB") 1000 /\ to_bytes (s "18446744073709552KB") = UB.
Proof. split; [apply written_ok; vm_compute; reflexivity|]. split; [apply named_ok; vm_compute; reflexivity|]. vm_compute. reflexivity. Qed.

(** The only other exception: numbers that are no normal double *)
Theorem C12_out_of_range_only : forall t whole part blanks unit,
  written t whole part blanks unit -> to_bytes t = Throw OutOfRange ->
  ~ (not_tiny (amount whole part) /\ (amount whole part < 2 ^ 1023)%Q).
Proof. exact out_of_range_lemma. Qed.
Print Assumptions C12_out_of_range_only.

Theorem C12_exception_refuted :
  (exists t, to_bytes t = Throw OutOfRange /\ t = repeat "9"%char 400 ++ s "B") /\
  (exists t, to_bytes t = Throw OutOfRange /\ t = s "0." ++ repeat "0"%char 320 ++ s "1B").
Proof. split; eexists; (split; [|reflexivity]); vm_compute; reflexivity. Qed.
Print Assumptions C12_exception_refuted.

Example C12_out_of_range_only_nonvacuous :
  written (repeat "9"%char 400 ++ s "B") (repeat "9"%char 400) [] [] (s "B") /\ to_bytes (repeat "9"%char 400 ++ s "B") = Throw OutOfRange.
Proof. split; [apply written_ok; vm_compute; reflexivity|]. vm_compute. reflexivity. Qed.

(** Every outcome *)
Theorem C12_outcomes : forall t,
  (exists n, to_bytes t = Ret n /\ 0 <= n < 2 ^ 64) \/ to_bytes t = Throw InvalidArgument \/ to_bytes t = Throw OutOfRange \/ to_bytes t = UB.
Proof. exact outcome_lemma. Qed.
Print Assumptions C12_outcomes.

(** A larger amount of the same unit never gives fewer bytes *)
Theorem C12_monotone : forall t whole part blanks unit t' whole' part' blanks' unit' f n n',
  written t whole part blanks unit -> written t' whole' part' blanks' unit' -> unit_named unit f -> unit_named unit' f ->
  (amount whole part <= amount whole' part')%Q -> to_bytes t = Ret n -> to_bytes t' = Ret n' -> n <= n'.
Proof. exact monotone_lemma. Qed.
Print Assumptions C12_monotone.

Example C12_monotone_nonvacuous :
  written (s "1.1kb") (s "1") (s "1") [] (s "kb") /\ written (s "1.12 KB") (s "1") (s "12") (s " ") (s "KB") /\ unit_named (s "kb") 1000 /\ unit_named (s "KB") 1000 /\
  (amount (s "1") (s "1") <= amount (s "1") (s "12"))%Q /\ to_bytes (s "1.1kb") = Ret 1100 /\ to_bytes (s "1.12 KB") = Ret 1120.
Proof.
  split; [apply written_ok; vm_compute; reflexivity|]. split; [apply written_ok; vm_compute; reflexivity|].
  split; [apply named_ok; vm_compute; reflexivity|]. split; [apply named_ok; vm_compute; reflexivity|]. split; [vm_compute; discriminate|]. split; vm_compute; reflexivity.
Qed.

(** *** C13 *)

(** Multiples of the largest unit not above [n] are printed as they are; among them all numbers
    below 1000 *)
Theorem C13_multiple : forall n unit f q text,
  0 < n < 2 ^ 64 -> best_unit n unit f -> n = q * f -> decimal (Z.to_N q) text -> from_bytes n = text ++ unit.
Proof. exact multiple_decimal. Qed.
Print Assumptions C13_multiple.

Example C13_multiple_nonvacuous : best_unit 17000000000 (s "GB") 1000000000 /\ 17000000000 = 17 * 1000000000 /\ decimal 17 (s "17") /\ from_bytes 17000000000 = s "17GB".
Proof. split; [apply (best_ok _ _ _ 3); [reflexivity|reflexivity|lia|right; reflexivity]|]. split; [reflexivity|]. split; [exact (dec_decimal 17)|]. vm_compute. reflexivity. Qed.

Example C13_small : best_unit 999 (s "B") 1 /\ 999 = 999 * 1 /\ from_bytes 999 = s "999B" /\ from_bytes 0 = s "0B".
Proof. split; [apply (best_ok _ _ _ 0); [reflexivity|reflexivity|lia|right; reflexivity]|]. split; [reflexivity|]. split; vm_compute; reflexivity. Qed.

(** Every number: the unit is the largest not above it; the number printed has two decimals and is
    within 1/199 of the quotient, or it has none and is within 1/99 *)
Theorem C13_printed_partial : forall n, 0 < n < 2 ^ 64 -> exists whole part unit f,
  written (from_bytes n) whole part [] unit /\ best_unit n unit f /\
  ((part = [] /\ (Qabs (amount whole part - inject_Z n / inject_Z f) <= 1 # 99)%Q) \/
   (List.length part = 2%nat /\ (Qabs (amount whole part - inject_Z n / inject_Z f) <= 1 # 199)%Q)).
Proof. exact printed_lemma. Qed.
Print Assumptions C13_printed_partial.

Example C13_printed_nonvacuous : from_bytes 123456789 = s "123.46MB" /\ from_bytes (2 ^ 64 - 1) = s "18446.74PB".
Proof. split; vm_compute; reflexivity. Qed.

(** 1009 bytes are printed without decimals although they are no multiple of the unit *)
Theorem C13_two_decimals_refuted : exists n, best_unit n (s "KB") 1000 /\ n mod 1000 <> 0 /\ from_bytes n = s "1KB" /\ n = 1009.
Proof. exists 1009. split; [apply (best_ok _ _ _ 1); [reflexivity|reflexivity|lia|right; reflexivity]|]. split; [discriminate|]. split; vm_compute; reflexivity. Qed.
Print Assumptions C13_two_decimals_refuted.

(** a number rounded up is printed as 1000 of the smaller unit *)
Theorem C13_below_1000_refuted : exists n, best_unit n (s "KB") 1000 /\ from_bytes n = s "1000.00KB" /\ n = 999999.
Proof. exists 999999. split; [apply (best_ok _ _ _ 1); [reflexivity|reflexivity|lia|right; reflexivity]|]. split; vm_compute; reflexivity. Qed.
Print Assumptions C13_below_1000_refuted.

(** Reading back what was printed *)
Theorem C13_round_trip : forall n unit f,
  0 <= n < 2 ^ 64 -> n = 0 \/ (best_unit n unit f /\ (f | n)) -> to_bytes (from_bytes n) = Ret n.
Proof. exact round_trip_lemma. Qed.
Print Assumptions C13_round_trip.

Example C13_round_trip_nonvacuous : best_unit 18446000000000000000 (s "PB") 1000000000000000 /\ (1000000000000000 | 18446000000000000000) /\ to_bytes (s "18446PB") = Ret 18446000000000000000.
Proof. split; [apply (best_ok _ _ _ 5); [reflexivity|reflexivity|lia|left; reflexivity]|]. split; [exists 18446; reflexivity|]. vm_compute. reflexivity. Qed.

Theorem C13_round_trip_near : forall n unit f, 0 < n <= 18445 * 1000 ^ 5 -> best_unit n unit f ->
  exists m, to_bytes (from_bytes n) = Ret m /\ (Qabs (inject_Z m - inject_Z n) <= inject_Z f * (1 # 98) + 1)%Q.
Proof. exact round_trip_near_lemma. Qed.
Print Assumptions C13_round_trip_near.

Example C13_round_trip_near_nonvacuous : best_unit 1234567 (s "MB") 1000000 /\ to_bytes (from_bytes 1234567) = Ret 1230000.
Proof. split; [apply (best_ok _ _ _ 2); [reflexivity|reflexivity|lia|right; reflexivity]|]. vm_compute. reflexivity. Qed.

(** the largest amounts cannot be read back *)
Theorem C13_round_trip_refuted : to_bytes (from_bytes (2 ^ 64 - 1)) = Throw InvalidArgument.
Proof. vm_compute. reflexivity. Qed.
Print Assumptions C13_round_trip_refuted.
