(** Time spent playing, instant by instant. *)
From Coq Require Import ZArith List Bool.
From Verif Require Import Timer_model.
Import ListNotations.
Local Open Scope Z_scope.

(** [newest]: calls, most recent first.  Whether the timer plays at instant [u]: decided by
    the most recent play or pause not after [u] *)
Fixpoint plays_at (initially : bool) (newest : list (Z * timer_call)) (u : Z) : bool :=
  match newest with
  | [] => initially
  | (t, c) :: older =>
      if t <=? u then
        match c with Play => true | Pause => false | Reset => plays_at initially older u end
      else plays_at initially older u
  end.

(** when the count was last started afresh *)
Fixpoint last_reset (born : Z) (newest : list (Z * timer_call)) : Z :=
  match newest with
  | [] => born
  | (t, Reset) :: _ => t
  | _ :: older => last_reset born older
  end.

(** the number of instants [u] with [from <= u < to] that satisfy [p] *)
Definition instants (from to : Z) (p : Z -> bool) : Z :=
  Z.of_nat (length (filter p (map (fun i => from + Z.of_nat i) (seq 0 (Z.to_nat (to - from)))))).

(** the clock never goes backwards *)
Fixpoint clock_ok (born : Z) (newest : list (Z * timer_call)) (now : Z) : Prop :=
  match newest with
  | [] => born <= now
  | (t, _) :: older => t <= now /\ clock_ok born older t
  end.

(** intervals spent playing, oldest first, since the last reset; [since]: start of the
    current one *)
Fixpoint intervals (since : option Z) (calls : list (Z * timer_call)) (done : list (Z * Z)) (now : Z) : list (Z * Z) :=
  match calls with
  | [] => done ++ match since with Some a => [(a, now)] | None => [] end
  | (t, c) :: rest =>
      match c, since with
      | Play, None => intervals (Some t) rest done now
      | Play, Some a => intervals (Some a) rest done now
      | Pause, None => intervals None rest done now
      | Pause, Some a => intervals None rest (done ++ [(a, t)]) now
      | Reset, None => intervals None rest [] now
      | Reset, Some _ => intervals (Some t) rest [] now
      end
  end.

(** the sum, in order, of the measures of the intervals, with the given arithmetic *)
Definition total (D : Type) (zero : D) (add : D -> D -> D) (measure : Z -> Z -> D) (l : list (Z * Z)) : D :=
  fold_left (fun acc i => add acc (measure (fst i) (snd i))) l zero.
