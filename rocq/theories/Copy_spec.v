(** Vocabulary of C137. *)
From Verif Require Import Copy_model.

(** what std::malloc returns is not in use *)
Definition gives_free_memory (malloc : memory -> nat -> option nat) : Prop :=
  forall m size a, malloc m size = Some a -> forall i, a <= i < a + size -> m i = None.
(** the bytes from an address on *)
Definition holds (m : memory) (a : nat) (bytes : list N) : Prop := forall i, i < length bytes -> m (a + i) = Some (nth i bytes 0%N).
