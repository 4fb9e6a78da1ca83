(** Proofs of C133. *)
From Coq Require Import List ZArith Arith Bool Lia.
From Verif Require Import LogMessage_model LogMessage_spec.

Lemma parse_mono n : forall j ts r, parse n j ts = Some r -> parse (S n) j ts = Some r.
Proof.
  induction n as [|n IH]; intros j ts r H; [discriminate|]. 
  remember (S n) as m. cbn [parse]. rewrite Heqm in H. cbn [parse] in H.
  destruct j as [[|[|[|[|[|[|k]]]]]]|[|k] e].
  - destruct ts as [|t ts]; [discriminate|]. destruct t; try exact H. destruct (parse n (Level 5) ts) as [[e r']|] eqn:E; [|discriminate].
    subst m. rewrite (IH _ _ _ E). exact H.
  - destruct (parse n (Level 0) ts) as [[e r']|] eqn:E; [|discriminate]. subst m. rewrite (IH _ _ _ E). apply IH. exact H.
  - destruct (parse n (Level 1) ts) as [[e r']|] eqn:E; [|discriminate]. subst m. rewrite (IH _ _ _ E). apply IH. exact H.
  - destruct (parse n (Level 2) ts) as [[e r']|] eqn:E; [|discriminate]. subst m. rewrite (IH _ _ _ E). apply IH. exact H.
  - destruct (parse n (Level 3) ts) as [[e r']|] eqn:E; [|discriminate]. subst m. rewrite (IH _ _ _ E). apply IH. exact H.
  - destruct (parse n (Level 4) ts) as [[c r1]|] eqn:E; [|discriminate]. subst m. rewrite (IH _ _ _ E). destruct r1 as [|t r1]; [exact H|]. destruct t; try exact H.
    destruct (parse n (Level 5) r1) as [[a r2]|] eqn:E1; [|discriminate]. rewrite (IH _ _ _ E1). destruct r2 as [|t r2]; [discriminate|]. destruct t; try discriminate.
    destruct (parse n (Level 5) r2) as [[b r3]|] eqn:E2; [|discriminate]. rewrite (IH _ _ _ E2). exact H.
  - destruct (parse n (Level (S (S (S (S (S k)))))) ts) as [[e r']|] eqn:E; [|discriminate]. subst m. rewrite (IH _ _ _ E). apply IH. exact H.
  - exact H.
  - destruct ts as [|op ts]; [exact H|]. destruct (operator (S k) op); [|exact H].
    destruct (parse n (Level k) ts) as [[e2 r2]|] eqn:E; [|discriminate]. subst m. rewrite (IH _ _ _ E). apply IH. exact H.
Qed.

Lemma parse_le n m j ts r : n <= m -> parse n j ts = Some r -> parse m j ts = Some r.
Proof. induction 1 as [|m L IH]; intros H; [exact H|]. apply parse_mono. exact (IH H). Qed.

Lemma reads_unique : forall k ts e e', reads k ts e -> reads k ts e' -> e = e'.
Proof.
  intros k ts e e' [n H] [m H']. apply (parse_le _ (Nat.max n m)) in H; [|lia]. apply (parse_le _ (Nat.max n m)) in H'; [|lia]. congruence.
Qed.

(** tokens that may continue an expression of a level *)
Definition continues (k : nat) (t : token) : bool :=
  match t with TTimes => 1 <=? k | TPlus | TMinus => 2 <=? k | TShl => 3 <=? k | TLt | TGt => 4 <=? k | TQuestion => 5 <=? k | _ => false end.
Definition stops (k : nat) (r z : list token) : Prop :=
  match r, z with [], t :: _ => continues k t = false | _, _ => True end.
Definition level_of (j : job) : nat := match j with Level k | Rest k _ => k end.

Lemma stops_le k k' r z : k' <= k -> stops k r z -> stops k' r z.
Proof.
  intros L. unfold stops. destruct r; [|auto]. destruct z as [|t z]; [auto|]. destruct t; cbn [continues]; intros H; try discriminate; try reflexivity;
  apply Nat.leb_gt in H; apply Nat.leb_gt; lia.
Qed.
Lemma continues_operator k t : continues k t = false -> operator k t = false.
Proof. destruct t; cbn; try discriminate; intros H; try (apply Nat.leb_gt in H); destruct k as [|[|[|[|[|[|k]]]]]]; try reflexivity; lia. Qed.

(** what remains is a suffix: nothing remains when more was read *)
Lemma stops_sub (k : nat) (r r' z : list token) : (r = [] -> r' = []) -> stops k r' z -> stops k r z.
Proof. intros H. unfold stops. destruct r as [|t r]; [rewrite (H eq_refl)|]; auto. Qed.

Lemma parse_nil n : forall j r, parse n j [] = Some r -> snd r = [].
Proof.
  induction n as [|n IH]; intros j r H; [discriminate|]. cbn [parse] in H. destruct j as [[|[|[|[|[|[|k]]]]]]|[|k] e]; try discriminate; try (injection H as <-; reflexivity).
  - destruct (parse n (Level 0) []) as [[e r']|] eqn:E; [|discriminate]. pose proof (IH _ _ E) as X. cbn in X. subst r'. exact (IH _ _ H).
  - destruct (parse n (Level 1) []) as [[e r']|] eqn:E; [|discriminate]. pose proof (IH _ _ E) as X. cbn in X. subst r'. exact (IH _ _ H).
  - destruct (parse n (Level 2) []) as [[e r']|] eqn:E; [|discriminate]. pose proof (IH _ _ E) as X. cbn in X. subst r'. exact (IH _ _ H).
  - destruct (parse n (Level 3) []) as [[e r']|] eqn:E; [|discriminate]. pose proof (IH _ _ E) as X. cbn in X. subst r'. exact (IH _ _ H).
  - destruct (parse n (Level 4) []) as [[e r']|] eqn:E; [|discriminate]. pose proof (IH _ _ E) as X. cbn in X. subst r'. injection H as <-. reflexivity.
  - destruct (parse n (Level (S (S (S (S (S k)))))) []) as [[e r']|] eqn:E; [|discriminate]. pose proof (IH _ _ E) as X. cbn in X. subst r'. exact (IH _ _ H).
Qed.

Lemma parse_app n : forall j ts e r z, level_of j <= 5 -> parse n j ts = Some (e, r) -> stops (level_of j) r z -> parse n j (ts ++ z) = Some (e, r ++ z).
Proof.
  induction n as [|n IH]; intros j ts e r z L H S; [discriminate|]. cbn [parse] in H |- *.
  assert (Bin : forall k, k <= 4 -> match parse n (Level k) ts with Some (e, r) => parse n (Rest (Datatypes.S k) e) r | None => None end = Some (e, r) -> stops (Datatypes.S k) r z ->
    match parse n (Level k) (ts ++ z) with Some (e, r) => parse n (Rest (Datatypes.S k) e) r | None => None end = Some (e, r ++ z)).
  { intros k Lk H1 S1. destruct (parse n (Level k) ts) as [[e1 r1]|] eqn:E; [|discriminate].
    assert (N : r1 = [] -> r = []) by (intros ->; exact (parse_nil _ _ _ H1)).
    rewrite (IH (Level k) ts e1 r1 z); [|cbn; lia|exact E|cbn [level_of]; apply (stops_sub _ _ r); [exact N|apply (stops_le (Datatypes.S k)); [lia|exact S1]]].
    apply IH; [cbn; lia|exact H1|exact S1]. }
  destruct j as [[|[|[|[|[|[|k]]]]]]|[|k] e0]; cbn [level_of] in *.
  - destruct ts as [|t ts]; [discriminate|]. destruct t; try discriminate; cbn [app]; try (injection H as <- <-; reflexivity).
    destruct (parse n (Level 5) ts) as [[e1 r1]|] eqn:E; [|discriminate]. destruct r1 as [|t r1]; [discriminate|]. destruct t; try discriminate.
    rewrite (IH (Level 5) ts e1 (TClose :: r1) z); [|cbn; lia|exact E|exact I]. cbn [app]. injection H as <- <-. reflexivity.
  - apply Bin; [lia|exact H|exact S].
  - apply Bin; [lia|exact H|exact S].
  - apply Bin; [lia|exact H|exact S].
  - apply Bin; [lia|exact H|exact S].
  - destruct (parse n (Level 4) ts) as [[c r1]|] eqn:E; [|discriminate].
    destruct r1 as [|t r1].
    + injection H as <- <-. rewrite (IH (Level 4) ts c [] z); [|cbn; lia|exact E|cbn [level_of]; apply (stops_le 5); [lia|exact S]]. cbn [app].
      destruct z as [|t z]; [reflexivity|]. destruct t; try reflexivity. discriminate.
    + rewrite (IH (Level 4) ts c (t :: r1) z); [|cbn; lia|exact E|exact I]. cbn [app].
      destruct t; try (injection H as <- <-; reflexivity).
      destruct (parse n (Level 5) r1) as [[a r2]|] eqn:E1; [|discriminate]. destruct r2 as [|t r2]; [discriminate|]. destruct t; try discriminate.
      rewrite (IH (Level 5) r1 a (TColon :: r2) z); [|cbn; lia|exact E1|exact I]. cbn [app].
      destruct (parse n (Level 5) r2) as [[b r3]|] eqn:E2; [|discriminate]. injection H as <- <-.
      rewrite (IH (Level 5) r2 b r3 z); [reflexivity|cbn; lia|exact E2|exact S].
  - lia.
  - injection H as <- <-. reflexivity.
  - destruct ts as [|op ts].
    + injection H as <- <-. cbn [app]. destruct z as [|t z]; [reflexivity|]. cbn in S. rewrite (continues_operator _ _ S). reflexivity.
    + cbn [app]. destruct (operator (Datatypes.S k) op).
      * destruct (parse n (Level k) ts) as [[e2 r2]|] eqn:E; [|discriminate]. assert (N : r2 = [] -> r = []) by (intros ->; exact (parse_nil _ _ _ H)).
        rewrite (IH (Level k) ts e2 r2 z); [|cbn; lia|exact E|cbn [level_of]; apply (stops_sub _ _ r); [exact N|apply (stops_le (Datatypes.S k)); [lia|exact S]]].
        apply IH; [cbn; lia|exact H|exact S].
      * injection H as <- <-. reflexivity.
Qed.

(** ** Reading what is put together *)
(** [e] is read at the front, and [z] remains *)
Definition front (k : nat) (ts : list token) (e : expr) (z : list token) : Prop := exists n, parse n (Level k) ts = Some (e, z).
Definition rest (k : nat) (e0 : expr) (ts : list token) (e : expr) (z : list token) : Prop := exists n, parse n (Rest k e0) ts = Some (e, z).

Lemma front_app k ts e z : k <= 5 -> reads k ts e -> stops k [] z -> front k (ts ++ z) e z.
Proof. intros L [n H] S. exists n. exact (parse_app n (Level k) ts e [] z L H S). Qed.
Lemma front_up k ts e z : k < 4 -> front k ts e z -> match z with t :: _ => operator (S k) t = false | [] => True end -> front (S k) ts e z.
Proof.
  intros L [n H] Z. exists (S n). destruct n as [|n]; [discriminate|].
  assert (X : parse (S n) (Rest (S k) e) z = Some (e, z)) by (cbn [parse]; destruct z as [|t z]; [reflexivity|]; rewrite Z; reflexivity).
  destruct k as [|[|[|[|k]]]]; [| | | |lia]; remember (S n) as m; cbn [parse]; rewrite H; exact X.
Qed.
Lemma front_cond ts e z : front 4 ts e z -> match z with TQuestion :: _ => False | _ => True end -> front 5 ts e z.
Proof. intros [n H] Z. exists (S n). cbn [parse]. rewrite H. destruct z as [|t z]; [reflexivity|]. destruct t; try reflexivity. contradiction. Qed.
Lemma front_if ts c a b ts1 ts2 z : front 4 ts c (TQuestion :: ts1) -> front 5 ts1 a (TColon :: ts2) -> front 5 ts2 b z -> front 5 ts (ECond c a b) z.
Proof.
  intros [n1 H1] [n2 H2] [n3 H3]. exists (S (n1 + n2 + n3)). cbn [parse].
  rewrite (parse_le n1 (n1 + n2 + n3) _ _ _ ltac:(lia) H1), (parse_le n2 (n1 + n2 + n3) _ _ _ ltac:(lia) H2), (parse_le n3 (n1 + n2 + n3) _ _ _ ltac:(lia) H3). reflexivity.
Qed.

(** one more item *)
Lemma rest_end e z : match z with t :: _ => operator 3 t = false | [] => True end -> rest 3 e z e z.
Proof. intros Z. exists 1. cbn [parse]. destruct z as [|t z]; [reflexivity|]. rewrite Z. reflexivity. Qed.
Lemma rest_item e0 i ei ts e z : front 2 (i ++ ts) ei ts -> rest 3 (EBin TShl e0 ei) ts e z -> rest 3 e0 (TShl :: i ++ ts) e z.
Proof.
  intros [n H1] [m H2]. exists (S (n + m)). cbn [parse operator]. rewrite (parse_le n (n + m) _ _ _ ltac:(lia) H1). apply (parse_le m); [lia|exact H2].
Qed.
Lemma front_rest ts e0 r e z : front 2 ts e0 r -> rest 3 e0 r e z -> front 3 ts e z.
Proof.
  intros [n H1] [m H2]. exists (S (n + m)). cbn [parse]. rewrite (parse_le n (n + m) _ _ _ ltac:(lia) H1). apply (parse_le m); [lia|exact H2].
Qed.

Section Items.
Context (decimal : Z -> str) (vars : nat -> Z).
Notation ev := (eval decimal vars).

Lemma message_rest items texts : items <> [] -> Forall2 (item_shows decimal vars) items texts -> forall e0 z,
  match z with t :: _ => continues 2 t = false | [] => True end ->
  (exists o0, type_of e0 = Some Stream /\ ev e0 [] = (VStream, o0)) ->
  exists e1, (forall e y, rest 3 e1 z e y -> rest 3 e0 (TShl :: message items ++ z) e y) /\ type_of e1 = Some Stream /\
    forall o0, ev e0 [] = (VStream, o0) -> ev e1 [] = (VStream, o0 ++ concat texts).
Proof.
  intros N F. revert N. induction F as [|i t items texts Hi F IH]; intros N e0 z Z (o0 & T0 & V0); [contradiction|]. clear N.
  destruct Hi as (ei & Ri & Hi).
  assert (Step : type_of (EBin TShl e0 ei) = Some Stream /\ ev (EBin TShl e0 ei) [] = (VStream, o0 ++ t)).
  { cbn [type_of eval]. rewrite T0, V0. destruct Hi as [(Ti & q & Vi & ->)|(Ti & Vi)]; rewrite Ti, Vi; split; reflexivity. }
  destruct items as [|i2 items].
  - inversion F; subst. exists (EBin TShl e0 ei). split; [|split; [apply Step|]].
    + intros e y R. apply (rest_item _ _ ei); [|exact R]. apply front_app; [lia|exact Ri|]. destruct z; [exact I|exact Z].
    + intros o V. rewrite V0 in V. injection V as <-. cbn [concat]. rewrite app_nil_r. apply Step.
  - destruct (IH ltac:(discriminate) (EBin TShl e0 ei) z Z (ex_intro _ (o0 ++ t) Step)) as (e1 & R1 & T1 & V1). exists e1. split; [|split; [exact T1|]].
    + intros e y R. specialize (R1 _ _ R). change (message (i :: i2 :: items)) with (i ++ [TShl] ++ message (i2 :: items)). rewrite <- app_assoc. cbn [app].
      apply (rest_item _ _ ei); [apply front_app; [lia|exact Ri|reflexivity]|exact R1].
    + intros o V. rewrite V0 in V. injection V as <-. cbn [concat]. rewrite app_assoc. apply V1. apply Step.
Qed.

Lemma queued_front prefix items texts z : items <> [] -> Forall2 (item_shows decimal vars) items texts ->
  match z with t :: _ => continues 3 t = false | [] => True end ->
  exists e, front 3 (queued_text prefix (message items) ++ z) e z /\ type_of e = Some Stream /\ ev e [] = (VStream, prefix ++ concat texts).
Proof.
  intros N F Z. destruct (message_rest items texts N F (EBin TShl EStream (EText prefix)) z) as (e1 & R1 & T1 & V1).
  - destruct z as [|t z]; [exact I|]. destruct t; try reflexivity; discriminate.
  - exists prefix. split; reflexivity.
  - exists e1. split; [|split; [exact T1|apply V1; reflexivity]]. unfold queued_text. cbn [app].
    apply (front_rest _ EStream (TShl :: [TText prefix] ++ TShl :: message items ++ z)); [exists 5; reflexivity|].
    apply (rest_item _ _ (EText prefix)); [exists 5; reflexivity|]. apply R1. apply rest_end. destruct z as [|t z]; [exact I|]. exact (continues_operator _ _ Z).
Qed.
Lemma printed_front items texts : items <> [] -> Forall2 (item_shows decimal vars) items texts ->
  exists e, front 3 (printed_text (message items)) e [] /\ type_of e = Some Stream /\ ev e [] = (VStream, concat texts ++ line_end).
Proof.
  intros N F. destruct (message_rest items texts N F EStream [TShl; TText line_end]) as (e1 & R1 & T1 & V1).
  - reflexivity.
  - exists []. split; reflexivity.
  - exists (EBin TShl e1 (EText line_end)). split; [|split; [cbn [type_of]; rewrite T1; reflexivity|cbn [eval]; rewrite (V1 [] eq_refl); reflexivity]].
    unfold printed_text. cbn [app]. apply (front_rest _ EStream (TShl :: message items ++ [TShl; TText line_end])); [exists 5; reflexivity|].
    apply R1. apply (rest_item e1 [TText line_end] (EText line_end) []); [exists 5; reflexivity|]. apply rest_end. exact I.
Qed.

Lemma front3_5 ts e z : front 3 ts e z -> match z with TLt :: _ | TGt :: _ | TQuestion :: _ => False | _ => True end -> front 5 ts e z.
Proof.
  intros H Z. apply front_cond; [apply front_up; [lia|exact H|]|]; destruct z as [|t z]; try exact I; destruct t; try reflexivity; try contradiction; exact I.
Qed.

Lemma items_lemma prefix items texts : items <> [] -> Forall2 (item_shows decimal vars) items texts ->
  writes decimal vars (queued_text prefix (message items)) (prefix ++ concat texts) /\ writes decimal vars (printed_text (message items)) (concat texts ++ line_end).
Proof.
  intros N F. split.
  - destruct (queued_front prefix items texts [] N F I) as (e & H & T & V). rewrite app_nil_r in H. exists e, Stream. split; [apply front3_5; [exact H|exact I]|]. split; [exact T|rewrite V; reflexivity].
  - destruct (printed_front items texts N F) as (e & H & T & V). exists e, Stream. split; [apply front3_5; [exact H|exact I]|]. split; [exact T|rewrite V; reflexivity].
Qed.

(** what is after [?] is not written *)
Lemma conditional_lemma prefix items texts a b ea eb ty : items <> [] -> Forall2 (item_shows decimal vars) items texts ->
  reads conditional a ea -> reads conditional b eb -> type_of ea = Some ty -> type_of eb = Some ty -> ty <> Stream -> (forall out, snd (ev ea out) = out) ->
  writes decimal vars (queued_text prefix (message items ++ [TQuestion] ++ a ++ [TColon] ++ b)) (prefix ++ concat texts).
Proof.
  intros N F Ra Rb Ta Tb Ns O. destruct (queued_front prefix items texts (TQuestion :: a ++ TColon :: b) N F eq_refl) as (e & H & T & V).
  exists (ECond e ea eb), ty. split; [|split].
  - unfold queued_text in *. cbn [app] in *. apply (front_if _ _ _ _ (a ++ TColon :: b) b); [apply front_up; [lia|exact H|reflexivity]| |exact Rb].
    apply front_app; [lia|exact Ra|reflexivity].
  - cbn [type_of]. rewrite T, Ta, Tb. destruct ty; try reflexivity.
  - cbn [eval]. rewrite V. cbn [truth]. rewrite O. reflexivity.
Qed.
(** of logUser it does not compile, nor does a comparison *)
Lemma comparison_lemma prefix items texts i e1 : items <> [] -> Forall2 (item_shows decimal vars) items texts -> reads shift i e1 -> ~ compiles (queued_text prefix (message items ++ [TLt] ++ i)).
Proof.
  unfold shift. intros N F Ri (e & ty & R & T). destruct (queued_front prefix items texts (TLt :: i) N F eq_refl) as (e0 & H & T0 & V).
  assert (X : reads conditional (queued_text prefix (message items ++ [TLt] ++ i)) (EBin TLt e0 e1)).
  { unfold queued_text in *. cbn [app] in *. apply front_cond; [|exact I]. destruct H as [n H], Ri as [m Ri]. exists (S (S (S (n + m)))).
    apply (parse_le _ (S (S (n + m)))) in H; [|lia]. apply (parse_le _ (S (n + m))) in Ri; [|lia]. remember (S (n + m)) as q. cbn [parse] in H |- *. rewrite H. cbn [operator]. rewrite Ri. subst q. reflexivity. }
  rewrite (reads_unique _ _ _ _ R X) in T. cbn in T. rewrite T0 in T. discriminate.
Qed.
End Items.
