(** Model of copy_to_void_ptr, cpp_utils/include/cpp_utils/impl/utils.ipp:158-166, on a memory of bytes. *)
From Coq Require Export List NArith Arith Bool.
From Verif Require Export Outcome.
Export ListNotations.

(** the byte at each address; [None]: not allocated *)
Definition memory := nat -> option N.
Fixpoint read (m : memory) (a size : nat) : option (list N) :=
  match size with
  | 0 => Some []
  | S size => match m a, read m (S a) size with Some b, Some bs => Some (b :: bs) | _, _ => None end
  end.
Definition store (m : memory) (a : nat) (b : N) : memory := fun x => if x =? a then Some b else m x.
Fixpoint store_all (m : memory) (a : nat) (bs : list N) : memory :=
  match bs with [] => m | b :: bs => store_all (store m a b) (S a) bs end.

Section Copy.
(** std::malloc: an address for so many bytes, [None] being the null pointer; what is there is arbitrary *)
Variables (malloc : memory -> nat -> option nat) (junk : nat -> N).
Definition allocate (m : memory) (a size : nat) : memory := fun x => if (a <=? x) && (x <? a + size) then Some (junk x) else m x.

(** utils.ipp:158-166: std::memcpy to a null pointer or from bytes that are not allocated is undefined *)
Definition copy_to_void_ptr (m : memory) (source size : nat) : outcome (nat * memory) :=
  match malloc m size with
  | None => UB
  | Some new_ptr =>
    let m := allocate m new_ptr size in
    match read m source size with
    | None => UB
    | Some bytes => Ret (new_ptr, store_all m new_ptr bytes)
    end
  end.
End Copy.
