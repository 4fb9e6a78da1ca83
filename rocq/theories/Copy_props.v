(** Property C137. *)
From Coq Require Import Lia.
From Verif Require Import Copy_model Copy_spec Copy_proofs.

(** For every object, memory and allocator that finds memory: the bytes of the object are at the address returned, no
    other byte changes, and whatever is then written to the object leaves the copy as it is. *)
Theorem C137_copy_partial : forall malloc junk m source bytes a, gives_free_memory malloc -> holds m source bytes -> malloc m (length bytes) = Some a ->
  exists m', copy_to_void_ptr malloc junk m source (length bytes) = Ret (a, m') /\ holds m' a bytes /\ (forall x, ~ (a <= x < a + length bytes) -> m' x = m x) /\
  forall i b, i < length bytes -> holds (store m' (source + i) b) a bytes /\ holds (store m' (a + i) b) source bytes.
Proof.
  intros malloc junk m source bytes a G Hd M. destruct (copy_lemma malloc junk m source bytes a G Hd M) as (m' & E & H1 & O & F).
  exists m'. split; [exact E|]. split; [exact H1|]. split; [exact O|]. intros i b I. split.
  - apply independent_lemma; [exact H1|]. intros X. apply (F i (source + i - a)); [exact I| |]; lia.
  - apply independent_lemma.
    + intros j J. rewrite O; [apply Hd; exact J|]. intros X. apply (F j (source + j - a)); [exact J| |]; lia.
    + intros X. apply (F (a + i - source) i); [|exact I|]; lia.
Qed.
Print Assumptions C137_copy_partial.

(** two bytes at 10, copied to 20 *)
Definition at_20 (m : memory) (size : nat) : option nat := if forallb (fun x => match m x with None => true | _ => false end) (seq 20 size) then Some 20 else None.
Definition two_bytes : memory := fun x => if x =? 10 then Some 7%N else if x =? 11 then Some 9%N else None.
Example C137_copy_nonvacuous : gives_free_memory at_20 /\ holds two_bytes 10 [7; 9]%N /\ at_20 two_bytes 2 = Some 20 /\
  match copy_to_void_ptr at_20 (fun _ => 0%N) two_bytes 10 2 with Ret (a, m) => read m a 2 = Some [7; 9]%N | _ => False end.
Proof.
  split; [|split; [|split; reflexivity]].
  - intros m size a. unfold at_20. destruct (forallb _ _) eqn:E; [|discriminate]. intros [= <-] i I. rewrite forallb_forall in E. specialize (E i ltac:(apply in_seq; lia)). destruct (m i); [discriminate|reflexivity].
  - intros [|[|i]] I; cbn in I; try lia; reflexivity.
Qed.

(** Of every allocator this is false: when no memory is left, the null pointer is written to. *)
Theorem C137_no_memory_refuted : exists malloc junk m source bytes, gives_free_memory malloc /\ holds m source bytes /\ copy_to_void_ptr malloc junk m source (length bytes) = UB.
Proof.
  exists (fun _ _ => None), (fun _ => 0%N), two_bytes, 10, [7; 9]%N. split; [intros m size a [=]|]. split; [|reflexivity].
  intros [|[|i]] I; cbn in I; try lia; reflexivity.
Qed.
Print Assumptions C137_no_memory_refuted.
