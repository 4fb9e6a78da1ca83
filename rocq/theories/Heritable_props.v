(** The properties of Heritable, C101-C104. *)
From Verif Require Import Heritable_spec Heritable_proofs.

(** classes of the examples *)
Definition base : class := [0].
Definition child_a : class := [0; 0].
Definition child_b : class := [0; 1].
Definition all_virtual (c : class) : bool := true.
Definition none_virtual (c : class) : bool := false.
Definition state_after (virtual : class -> bool) (ops : list op) : world :=
  match program virtual false empty ops with Done w _ => w | _ => empty end.
Lemma program_reached virtual moves ops : forall w w' l, reached virtual moves w -> program virtual moves w ops = Done w' l -> reached virtual moves w'.
Proof.
  induction ops as [|o ops IH]; intros w w' l R E; cbn [program] in E; [injection E as <- <-; exact R|].
  destruct (exec virtual moves w o) as [w1 a| |] eqn:E1; try discriminate. destruct (program virtual moves w1 ops) as [w2 l2| |] eqn:E2; try discriminate.
  injection E as <- <-. eapply IH; [|exact E2]. eapply re_exec; eauto.
Qed.
Ltac by_program ops := eapply (program_reached _ _ ops); [apply re_empty|vm_compute; reflexivity].

(** C101: an object exists as long as some variable has it, and is deleted once. *)
Theorem C101_lives virtual moves w : reached virtual moves w -> NoDup (deleted w) /\ forall i, lives w i <-> exists h, refers w h i.
Proof. exact (lives_lemma virtual moves w). Qed.
Print Assumptions C101_lives.
Theorem C101_no_leak virtual moves w : reached virtual moves w -> (forall h, nth_error (variables w) h = None \/ nth_error (variables w) h = Some None) ->
  forall i, i < List.length (objects w) -> In i (deleted w).
Proof. exact (all_deleted virtual moves w). Qed.
Print Assumptions C101_no_leak.

Definition two_objects : list op := [Make base child_a 1; Make base base 2; Copy base 0; Assign 1 0; Destroy 0; Move base 2; Destroy 1].
Example C101_nonvacuous : reached all_virtual false (state_after all_virtual two_objects) /\ deleted (state_after all_virtual two_objects) = [1] /\
  refers (state_after all_virtual two_objects) 3 0 /\ deleted (state_after all_virtual (two_objects ++ [Destroy 3; Destroy 2])) = [0; 1].
Proof.
  split; [by_program two_objects|]. split; [vm_compute; reflexivity|]. split; [eexists; vm_compute; split; reflexivity|vm_compute; reflexivity].
Qed.

(** C102: copies and assignments share the object; what is written through one variable is read through all
    those that share it and through no other. *)
Theorem C102_write virtual moves w h z w' a : exec virtual moves w (Set_ h z) = Done w' a ->
  deleted w' = deleted w /\ (forall g, pointee w' g = pointee w g) /\
  forall g, (together w h g -> reads virtual moves w' g z) /\ (~ together w h g -> forall y, reads virtual moves w' g y <-> reads virtual moves w g y).
Proof. exact (set_lemma virtual moves w h z w' a). Qed.
Print Assumptions C102_write.
Theorem C102_read virtual moves w h z : reads virtual moves w h z <-> exists i, pointee w h = Some (Some i) /\ nth_error (contents w) i = Some z.
Proof. exact (reads_lemma virtual moves w h z). Qed.
Print Assumptions C102_read.
Theorem C102_copy virtual moves w t g w' a : exec virtual moves w (Copy t g) = Done w' a ->
  contents w' = contents w /\ deleted w' = deleted w /\ pointee w' (List.length (variables w)) = pointee w g /\
  forall h, h <> List.length (variables w) -> pointee w' h = pointee w h.
Proof. exact (copy_lemma virtual moves w t g w' a). Qed.
Print Assumptions C102_copy.
Theorem C102_assign virtual moves w h g w' a : exec virtual moves w (Assign h g) = Done w' a ->
  contents w' = contents w /\ pointee w' h = pointee w g /\ forall k, k <> h -> pointee w' k = pointee w k.
Proof. exact (assign_lemma virtual moves w h g w' a). Qed.
Print Assumptions C102_assign.
(** a move leaves the source without object if the types are the same; otherwise, before C++20, it is a copy *)
Theorem C102_move virtual moves w t g w' a : exec virtual moves w (Move t g) = Done w' a ->
  contents w' = contents w /\ deleted w' = deleted w /\ pointee w' (List.length (variables w)) = pointee w g /\
  (forall h, h <> List.length (variables w) -> h <> g -> pointee w' h = pointee w h) /\
  (static_of w g = Some t \/ moves = true -> pointee w' g = Some None) /\
  (static_of w g <> Some t -> moves = false -> pointee w' g = pointee w g).
Proof. exact (move_lemma virtual moves w t g w' a). Qed.
Print Assumptions C102_move.
Theorem C102_move_assign virtual moves w h g w' a : exec virtual moves w (MoveAssign h g) = Done w' a ->
  contents w' = contents w /\ pointee w' h = pointee w g /\ (forall k, k <> h -> k <> g -> pointee w' k = pointee w k) /\
  (h <> g -> static_of w g = static_of w h \/ moves = true -> pointee w' g = Some None) /\
  (h <> g -> static_of w g <> static_of w h -> moves = false -> pointee w' g = pointee w g).
Proof. exact (move_assign_lemma virtual moves w h g w' a). Qed.
Print Assumptions C102_move_assign.
Theorem C102_compare virtual moves w h g y z : reached virtual moves w -> reads virtual moves w h y -> reads virtual moves w g z -> static_of w h = static_of w g ->
  exec virtual moves w (Equal h g) = Done w (Answer (Z.eqb y z)) /\ exec virtual moves w (Less h g) = Done w (Answer (Z.ltb y z)) /\
  exec virtual moves w (EqualTo h z) = Done w (Answer (Z.eqb y z)) /\ exec virtual moves w (LessTo h z) = Done w (Answer (Z.ltb y z)).
Proof. exact (compare_lemma virtual moves w h g y z). Qed.
Print Assumptions C102_compare.

Definition shared : list op := [Make base child_a 1; Copy base 0; Make child_b child_b 5; Copy base 2; Set_ 1 7; Get 0; Get 2; Equal 0 1; Less 3 0; Move base 2; Get 2; Move child_b 2; Get 4].
Example C102_nonvacuous : exists w, program all_virtual false empty shared =
  Done w [Nothing; Nothing; Nothing; Nothing; Nothing; Value 7; Value 5; Answer true; Answer true; Nothing; Value 5; Nothing; Value 5] /\
  together w 0 1 /\ ~ together w 0 3 /\ pointee w 2 = Some None /\ pointee w 5 = Some (Some 1).
Proof.
  eexists. split; [vm_compute; reflexivity|]. split; [exists 0; split; eexists; split; vm_compute; reflexivity|]. split; [|split; vm_compute; reflexivity].
  intros (i & (v & H1 & H2) & (x & H3 & H4)). vm_compute in H1, H3. injection H1 as <-. injection H3 as <-. vm_compute in H2, H4. congruence.
Qed.

(** C103: can_cast says whether dyn_cast succeeds; casts to the type of the variable and its bases always
    do, and dyn_cast gives the object of the variable. *)
Theorem C103_casts virtual moves w h u z : reached virtual moves w -> reads virtual moves w h z ->
  exists b, exec virtual moves w (CanCast u h) = Done w (Answer b) /\ exec virtual moves w (DynCast u h) = Done w (if b then Value z else BadCast) /\
    (forall c, static_of w h = Some c -> derives c u = true -> b = true).
Proof. exact (casts_lemma virtual moves w h u z). Qed.
Print Assumptions C103_casts.
Example C103_nonvacuous : exists w, program all_virtual false empty [Make base child_a 3; CanCast child_a 0; CanCast child_b 0; DynCast child_a 0; DynCast child_b 0; CanCast base 0] =
  Done w [Nothing; Answer true; Answer false; Value 3; BadCast; Answer true].
Proof. eexists. vm_compute; reflexivity. Qed.

(** C104: careful programs have no undefined behaviour ... *)
Theorem C104_partial virtual moves w o : carefully virtual moves w -> careful virtual w o -> exec virtual moves w o <> Undefined.
Proof. exact (careful_defined virtual moves w o). Qed.
Print Assumptions C104_partial.
(** ... but programs that compile have: a variable that was moved from is compared, ... *)
Theorem C104_moved_refuted moves : program all_virtual moves empty [Make base base 1; Move base 0; Equal 0 1] = Undefined /\
  program all_virtual moves empty [Make base base 1; Move base 0; CanCast base 0] = Undefined.
Proof. split; reflexivity. Qed.
Print Assumptions C104_moved_refuted.
(** ... a variable of a base class is copied to one of a derived class that is not that of the object, without a cast, ... *)
Theorem C104_downcast_refuted virtual moves : program virtual moves empty [Make base child_a 1; Copy child_b 0] = Undefined /\
  program virtual moves empty [Make base child_a 1; Make child_b child_b 2; Assign 1 0] = Undefined /\
  program virtual moves empty [Make child_a base 1] = Undefined.
Proof. repeat split. Qed.
Print Assumptions C104_downcast_refuted.
(** ... an object of a derived class is made, and its base class has no virtual destructor, as in the unit tests
    of the library (std::shared_ptr<Base>(new Derived) would be correct). *)
Theorem C104_destructor_refuted moves : program none_virtual moves empty [Make base child_a 1; Get 0; Destroy 0] = Undefined.
Proof. reflexivity. Qed.
Print Assumptions C104_destructor_refuted.

Example C104_nonvacuous : exists w, carefully all_virtual false w /\ careful all_virtual w (Equal 0 2) /\ exec all_virtual false w (Equal 0 2) = Done w (Answer true) /\ pointee w 1 = Some None.
Proof.
  assert (up : forall w g t c, static_of w g = Some c -> derives c t = true -> upcast w g t) by (intros w g t c H D c' H'; congruence).
  assert (A1 : carefully all_virtual false (state_after all_virtual [Make base child_b 3])).
  { eapply (c_exec _ _ _ (Make base child_b 3)); [apply c_empty|split; [reflexivity|right; reflexivity]|vm_compute; reflexivity]. }
  assert (A2 : carefully all_virtual false (state_after all_virtual [Make base child_b 3; Make child_a child_a 4])).
  { eapply (c_exec _ _ _ (Make child_a child_a 4)); [exact A1|split; [reflexivity|left; reflexivity]|vm_compute; reflexivity]. }
  assert (A3 : carefully all_virtual false (state_after all_virtual [Make base child_b 3; Make child_a child_a 4; Assign 0 1])).
  { eapply (c_exec _ _ _ (Assign 0 1)); [exact A2|intros c H; vm_compute in H; injection H as <-; eapply up; vm_compute; reflexivity|vm_compute; reflexivity]. }
  assert (A4 : carefully all_virtual false (state_after all_virtual [Make base child_b 3; Make child_a child_a 4; Assign 0 1; Move child_a 1])).
  { eapply (c_exec _ _ _ (Move child_a 1)); [exact A3|eapply up; vm_compute; reflexivity|vm_compute; reflexivity]. }
  eexists. split; [exact A4|]. split; [|split; vm_compute; reflexivity].
  split; [eexists; vm_compute; reflexivity|]. split; [eexists; vm_compute; reflexivity|]. intros c H. vm_compute in H. injection H as <-. eapply up; vm_compute; reflexivity.
Qed.
