(** Properties C04, C05, C06, C61. *)
From Verif Require Import Str Base64_model Base64_spec Base64_proofs StrUtils_proofs.

(** *** C04 *)
Theorem C04_base64_round_trip : forall t, base64_decode (base64_encode t) = t.
Proof. exact base64_round_trip. Qed.
Print Assumptions C04_base64_round_trip.

Example C04_nonvacuous :
  base64_encode (s "Many hands make light work.") = s "TWFueSBoYW5kcyBtYWtlIGxpZ2h0IHdvcmsu" /\
  base64_decode (s "TWFueSBoYW5kcyBtYWtlIGxpZ2h0IHdvcmsu") = s "Many hands make light work.".
Proof. split; vm_compute; reflexivity. Qed.

(** *** C05 *)
Theorem C05_base64_encode_is_rfc4648 : forall t, base64_encode t = rfc4648_encode t.
Proof. exact base64_encode_rfc. Qed.
Print Assumptions C05_base64_encode_is_rfc4648.

Theorem C05_base64_encode_length : forall t, length (base64_encode t) = 4 * ((length t + 2) / 3).
Proof. exact base64_length_lemma. Qed.
Print Assumptions C05_base64_encode_length.

Example C05_nonvacuous : base64_encode (s "fooba") = s "Zm9vYmE=" /\ rfc4648_encode (s "foob") = s "Zm9vYg==".
Proof. split; vm_compute; reflexivity. Qed.

(** *** C06: [syms] is the longest prefix of alphabet symbols, [groups] the six
    bits each of them denotes; whatever follows the first other byte is ignored
    and an incomplete last byte is dropped. *)
Theorem C06_base64_decode : forall syms groups rest,
  Forall2 denotes syms groups ->
  (forall c r, rest = c :: r -> ~ In c rfc_alphabet) ->
  base64_decode (syms ++ rest) = octets (concat groups).
Proof. exact base64_decode_lemma. Qed.
Print Assumptions C06_base64_decode.

(** every input has such a decomposition, so the theorem covers all inputs *)
Theorem C06_base64_decode_covers_all : forall input, exists syms groups rest,
  input = syms ++ rest /\ Forall2 denotes syms groups /\
  (forall c r, rest = c :: r -> ~ In c rfc_alphabet) /\
  length (base64_decode input) = 6 * length syms / 8.
Proof. exact decode_covers_lemma. Qed.
Print Assumptions C06_base64_decode_covers_all.

Example C06_nonvacuous : base64_decode (s "Zm9v!garbage") = s "foo" /\ base64_decode (s "Zm9vY") = s "foo".
Proof. split; vm_compute; reflexivity. Qed.

(** *** C61: strict integer semantics *)
Theorem C61_base64_shifts_defined_refuted : exists t, encode_shifts_defined t 0 = false.
Proof. exact encode_strict_refuted_lemma. Qed.
Print Assumptions C61_base64_shifts_defined_refuted.

Theorem C61_base64_shifts_defined_partial : forall t, length t <= 4 -> encode_shifts_defined t 0 = true.
Proof. exact encode_strict_short_lemma. Qed.
Print Assumptions C61_base64_shifts_defined_partial.

Example C61_nonvacuous : encode_shifts_defined (s "abcd") 0 = true.
Proof. exact (encode_strict_short_lemma (s "abcd") (le_n 4)). Qed.
