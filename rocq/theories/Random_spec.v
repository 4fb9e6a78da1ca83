(** Specification of C49. *)
From Verif Require Import Random_model.

Section Spec.
Variable G : Type.
Variable mt_seed : N -> G.
Variable mt_draw : G -> G * N.

(** the number that a generator seeded with [sd] draws after [n] others *)
Fixpoint drawn (g : G) (n : nat) : N :=
  match n with
  | 0 => snd (mt_draw g)
  | S n' => drawn (fst (mt_draw g)) n'
  end.
Definition nth_random (sd : N) (n : nat) : N := drawn (mt_seed sd) n.

(** the state of the specification: the last seed, and the calls to [sequence_rand] since *)
Inductive random_spec : N * nat -> rand_op -> N * nat -> option N -> Prop :=
| sp_pure st v : random_spec st (PureRand v) st (Some v)
| sp_sequence sd n : random_spec (sd, n) SequenceRand (sd, S n) (Some (nth_random sd n))
| sp_seed st sd : random_spec st (SetSeed sd) (sd, 0) None
| sp_seeded st sd : random_spec st (SeededRand sd) st (Some (nth_random sd 0)).

(** calls one after another *)
Inductive random_results : N * nat -> list rand_op -> list (option N) -> Prop :=
| rr_nil st : random_results st [] []
| rr_cons st o st' r os rs : random_spec st o st' r -> random_results st' os rs -> random_results st (o :: os) (r :: rs).

(** thread with [p] is using the generator [x] *)
Definition uses (x : gen_id) (p : rand_pc G) : bool :=
  match p with
  | RHeld o | RDraw o | RRead o _ | RDone o _ => match gen_of o with Some y => gen_eqb x y | None => false end
  | _ => false
  end.
End Spec.
Arguments uses {G} x p.
