(** Model of base64_encode / base64_decode (cpp_utils/src/cpp/utils.cpp:363-419). *)
From Coq Require Export ZArith.
From Verif Require Export Str.
Local Open Scope Z_scope.

(** two's complement 32-bit [int]: reduction of an integer to [-2^31, 2^31) *)
Definition wrap32 (z : Z) : Z := (z + 2 ^ 31) mod 2 ^ 32 - 2 ^ 31.

Definition byte (c : ascii) : Z := Z.of_N (N_of_ascii c).
Definition char_of (z : Z) : ascii := ascii_of_N (Z.to_N z).

(** utils.hpp:366 *)
Definition base64_alphabet : str := s "ABCDEFGHIJKLMNOPQRSTUVWXYZabcdefghijklmnopqrstuvwxyz0123456789+/".

(** [base64_alphabet[i]]; every index in the code is masked with 0x3F *)
Definition alphabet_at (i : Z) : ascii := nth (Z.to_nat i) base64_alphabet "="%char.

(** utils.cpp:374-378: [while (valb >= 0)] loop.  [valb] decreases by 6 in each
    iteration, so [fuel > valb] iterations suffice. *)
Fixpoint encode_emit (fuel : nat) (out : str) (val valb : Z) : str * Z :=
  match fuel with
  | O => (out, valb)
  | S fuel' =>
      if 0 <=? valb
      then encode_emit fuel' (out ++ [alphabet_at (Z.land (Z.shiftr val valb) 63)]) val (valb - 6)
      else (out, valb)
  end.

(** utils.cpp:370-379: the [for] loop; [int] arithmetic wraps (see C61 for the
    strict reading of the language standard). *)
Fixpoint encode_loop (input : str) (out : str) (val valb : Z) : str * Z * Z :=
  match input with
  | [] => (out, val, valb)
  | c :: rest =>
      let val := wrap32 (wrap32 (Z.shiftl val 8) + byte c) in
      let valb := valb + 8 in
      let '(out, valb) := encode_emit (S (Z.to_nat valb)) out val valb in
      encode_loop rest out val valb
  end.

(** utils.cpp:384-387: [while (out.size() % 4) out.push_back('=')]; at most 3
    iterations. *)
Fixpoint encode_pad (fuel : nat) (out : str) : str :=
  match fuel with
  | O => out
  | S fuel' => if Nat.eqb (Nat.modulo (length out) 4) 0 then out else encode_pad fuel' (out ++ ["="%char])
  end.

(** utils.cpp:364-389 *)
Definition base64_encode (input : str) : str :=
  let '(out, val, valb) := encode_loop input [] 0 (-6) in
  let out :=
    if -6 <? valb
    then out ++ [alphabet_at (Z.land (Z.shiftr (wrap32 (Z.shiftl val 8)) (valb + 8)) 63)]
    else out in
  encode_pad 4 out.

(** utils.cpp:397-401: the table T as a function, built by the same 64 updates *)
Definition decode_table : ascii -> Z :=
  fold_left (fun T i c => if Ascii.eqb c (alphabet_at (Z.of_nat i)) then Z.of_nat i else T c)
            (seq 0 64) (fun _ => -1).

(** utils.cpp:404-417 *)
Fixpoint decode_loop (input : str) (out : str) (val valb : Z) : str :=
  match input with
  | [] => out
  | c :: rest =>
      if decode_table c =? -1 then out
      else
        let val := wrap32 (wrap32 (Z.shiftl val 6) + decode_table c) in
        let valb := valb + 6 in
        if 0 <=? valb
        then decode_loop rest (out ++ [char_of (Z.land (Z.shiftr val valb) 255)]) val (valb - 8)
        else decode_loop rest out val valb
  end.

(** utils.cpp:392-419 *)
Definition base64_decode (input : str) : str := decode_loop input [] 0 (-8).

(** Strict reading of C++11/14/17 [expr.shift]/2 for [E1 << E2] with signed [E1]:
    defined only if [E1 >= 0] and [E1 * 2^E2] fits the unsigned type. *)
Definition shift_defined (e1 e2 : Z) : bool := (0 <=? e1) && (e1 * 2 ^ e2 <? 2 ^ 32).

(** whether every [val << 8] of the loop at utils.cpp:370-379 is defined *)
Fixpoint encode_shifts_defined (input : str) (val : Z) : bool :=
  match input with
  | [] => true
  | c :: rest => shift_defined val 8 && encode_shifts_defined rest (wrap32 (wrap32 (Z.shiftl val 8) + byte c))
  end.
