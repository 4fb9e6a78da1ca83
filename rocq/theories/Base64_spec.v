(** RFC 4648 base64 on bit strings. *)
From Verif Require Import Str.

(** the eight bits of a byte, most significant first *)
Definition byte_bits (c : ascii) : list bool :=
  match c with Ascii b0 b1 b2 b3 b4 b5 b6 b7 => [b7; b6; b5; b4; b3; b2; b1; b0] end.

Definition bits_of (t : str) : list bool := flat_map byte_bits t.

Definition rfc_alphabet : str := s "ABCDEFGHIJKLMNOPQRSTUVWXYZabcdefghijklmnopqrstuvwxyz0123456789+/".

(** value of a bit string, most significant first *)
Definition bits_value (l : list bool) : nat := fold_left (fun n (b : bool) => 2 * n + (if b then 1 else 0)) l 0.

Definition symbol (l : list bool) : ascii := nth (bits_value l) rfc_alphabet "="%char.

(** groups of six bits; an incomplete last group is completed with zero bits *)
Fixpoint sextets (l : list bool) : list (list bool) :=
  match l with
  | [] => []
  | b5 :: b4 :: b3 :: b2 :: b1 :: b0 :: rest => [b5; b4; b3; b2; b1; b0] :: sextets rest
  | last => [last ++ repeat false (6 - length last)]
  end.

(** number of '=' that complete [n] symbols to a multiple of four *)
Definition padding (n : nat) : nat := (4 - n mod 4) mod 4.

Definition rfc4648_encode (t : str) : str :=
  let symbols := map symbol (sextets (bits_of t)) in
  symbols ++ repeat "="%char (padding (length symbols)).

(** the six bits denoted by an alphabet symbol *)
Definition denotes (c : ascii) (l : list bool) : Prop := length l = 6 /\ symbol l = c.

(** the bytes contained in a bit string, an incomplete last byte dropped *)
Fixpoint octets (l : list bool) : str :=
  match l with
  | b7 :: b6 :: b5 :: b4 :: b3 :: b2 :: b1 :: b0 :: rest => Ascii b0 b1 b2 b3 b4 b5 b6 b7 :: octets rest
  | _ => []
  end.
