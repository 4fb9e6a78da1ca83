(** Proofs of C129. *)
From Coq Require Import List ZArith Arith Bool Lia.
From Verif Require Import Macro_model Macro_spec.

Lemma parse_mono n : forall j ts r, parse n j ts = Some r -> parse (S n) j ts = Some r.
Proof.
  induction n as [|n IH]; intros j ts r H; [discriminate|]. 
  remember (S n) as m. cbn [parse]. rewrite Heqm in H. cbn [parse] in H.
  destruct j as [[|[|[|[|[|k]]]]]|[|k] e].
  - destruct ts as [|t ts]; [discriminate|]. destruct t; try exact H. destruct (parse n (Level 4) ts) as [[e r']|] eqn:E; [|discriminate].
    subst m. rewrite (IH _ _ _ E). exact H.
  - destruct (parse n (Level 0) ts) as [[e r']|] eqn:E; [|discriminate]. subst m. rewrite (IH _ _ _ E). apply IH. exact H.
  - destruct (parse n (Level 1) ts) as [[e r']|] eqn:E; [|discriminate]. subst m. rewrite (IH _ _ _ E). apply IH. exact H.
  - destruct (parse n (Level 2) ts) as [[e r']|] eqn:E; [|discriminate]. subst m. rewrite (IH _ _ _ E). apply IH. exact H.
  - destruct (parse n (Level 3) ts) as [[c r1]|] eqn:E; [|discriminate]. subst m. rewrite (IH _ _ _ E). destruct r1 as [|t r1]; [exact H|]. destruct t; try exact H.
    destruct (parse n (Level 4) r1) as [[a r2]|] eqn:E1; [|discriminate]. rewrite (IH _ _ _ E1). destruct r2 as [|t r2]; [discriminate|]. destruct t; try discriminate.
    destruct (parse n (Level 4) r2) as [[b r3]|] eqn:E2; [|discriminate]. rewrite (IH _ _ _ E2). exact H.
  - destruct (parse n (Level (S (S (S (S k))))) ts) as [[e r']|] eqn:E; [|discriminate]. subst m. rewrite (IH _ _ _ E). apply IH. exact H.
  - exact H.
  - destruct ts as [|op ts]; [exact H|]. destruct (operator (S k) op); [|exact H].
    destruct (parse n (Level k) ts) as [[e2 r2]|] eqn:E; [|discriminate]. subst m. rewrite (IH _ _ _ E). apply IH. exact H.
Qed.

Lemma parse_le n m j ts r : n <= m -> parse n j ts = Some r -> parse m j ts = Some r.
Proof. induction 1 as [|m L IH]; intros H; [exact H|]. apply parse_mono. exact (IH H). Qed.

Lemma reads_unique : forall k ts e e', reads k ts e -> reads k ts e' -> e = e'.
Proof.
  intros k ts e e' [n H] [m H']. apply (parse_le _ (Nat.max n m)) in H; [|lia]. apply (parse_le _ (Nat.max n m)) in H'; [|lia]. congruence.
Qed.

(** tokens that may continue an expression of a level *)
Definition continues (k : nat) (t : token) : bool :=
  match t with TIncr => true | TTimes => 1 <=? k | TPlus | TMinus => 2 <=? k | TLt | TGt => 3 <=? k | TQuestion => 4 <=? k | _ => false end.
Definition stops (k : nat) (r z : list token) : Prop :=
  match r, z with [], t :: _ => continues k t = false | _, _ => True end.
Definition level_of (j : job) : nat := match j with Level k | Rest k _ => k end.

Lemma stops_le k k' r z : k' <= k -> stops k r z -> stops k' r z.
Proof.
  intros L. unfold stops. destruct r; [|auto]. destruct z as [|t z]; [auto|]. destruct t; cbn [continues]; intros H; try discriminate; try reflexivity;
  apply Nat.leb_gt in H; apply Nat.leb_gt; lia.
Qed.
Lemma continues_operator k t : continues k t = false -> operator k t = false.
Proof. destruct t; cbn; try discriminate; intros H; try (apply Nat.leb_gt in H); destruct k as [|[|[|[|[|k]]]]]; try reflexivity; lia. Qed.

(** what remains is a suffix: nothing remains when more was read *)
Lemma stops_sub (k : nat) (r r' z : list token) : (r = [] -> r' = []) -> stops k r' z -> stops k r z.
Proof. intros H. unfold stops. destruct r as [|t r]; [rewrite (H eq_refl)|]; auto. Qed.

Lemma parse_nil n : forall j r, parse n j [] = Some r -> snd r = [].
Proof.
  induction n as [|n IH]; intros j r H; [discriminate|]. cbn [parse] in H. destruct j as [[|[|[|[|[|k]]]]]|[|k] e]; try discriminate; try (injection H as <-; reflexivity).
  - destruct (parse n (Level 0) []) as [[e r']|] eqn:E; [|discriminate]. pose proof (IH _ _ E) as X. cbn in X. subst r'. exact (IH _ _ H).
  - destruct (parse n (Level 1) []) as [[e r']|] eqn:E; [|discriminate]. pose proof (IH _ _ E) as X. cbn in X. subst r'. exact (IH _ _ H).
  - destruct (parse n (Level 2) []) as [[e r']|] eqn:E; [|discriminate]. pose proof (IH _ _ E) as X. cbn in X. subst r'. exact (IH _ _ H).
  - destruct (parse n (Level 3) []) as [[e r']|] eqn:E; [|discriminate]. pose proof (IH _ _ E) as X. cbn in X. subst r'. injection H as <-. reflexivity.
  - destruct (parse n (Level (S (S (S (S k))))) []) as [[e r']|] eqn:E; [|discriminate]. pose proof (IH _ _ E) as X. cbn in X. subst r'. exact (IH _ _ H).
Qed.

Lemma parse_app n : forall j ts e r z, level_of j <= 4 -> parse n j ts = Some (e, r) -> stops (level_of j) r z -> parse n j (ts ++ z) = Some (e, r ++ z).
Proof.
  induction n as [|n IH]; intros j ts e r z L H S; [discriminate|]. cbn [parse] in H |- *.
  assert (Bin : forall k, k <= 3 -> match parse n (Level k) ts with Some (e, r) => parse n (Rest (Datatypes.S k) e) r | None => None end = Some (e, r) -> stops (Datatypes.S k) r z ->
    match parse n (Level k) (ts ++ z) with Some (e, r) => parse n (Rest (Datatypes.S k) e) r | None => None end = Some (e, r ++ z)).
  { intros k Lk H1 S1. destruct (parse n (Level k) ts) as [[e1 r1]|] eqn:E; [|discriminate].
    assert (N : r1 = [] -> r = []) by (intros ->; exact (parse_nil _ _ _ H1)).
    rewrite (IH (Level k) ts e1 r1 z); [|cbn; lia|exact E|cbn [level_of]; apply (stops_sub _ _ r); [exact N|apply (stops_le (Datatypes.S k)); [lia|exact S1]]].
    apply IH; [cbn; lia|exact H1|exact S1]. }
  destruct j as [[|[|[|[|[|k]]]]]|[|k] e0]; cbn [level_of] in *.
  - destruct ts as [|t ts]; [discriminate|]. destruct t; try discriminate; cbn [app].
    + injection H as <- <-. reflexivity.
    + destruct ts as [|t ts].
      * injection H as <- <-. cbn [app]. destruct z as [|t z]; [reflexivity|]. cbn in S. destruct t; try reflexivity. discriminate.
      * cbn [app]. destruct t; injection H as <- <-; reflexivity.
    + destruct (parse n (Level 4) ts) as [[e1 r1]|] eqn:E; [|discriminate]. destruct r1 as [|t r1]; [discriminate|]. destruct t; try discriminate.
      rewrite (IH (Level 4) ts e1 (TClose :: r1) z); [|cbn; lia|exact E|exact I]. cbn [app]. injection H as <- <-. reflexivity.
  - apply Bin; [lia|exact H|exact S].
  - apply Bin; [lia|exact H|exact S].
  - apply Bin; [lia|exact H|exact S].
  - destruct (parse n (Level 3) ts) as [[c r1]|] eqn:E; [|discriminate].
    destruct r1 as [|t r1].
    + injection H as <- <-. rewrite (IH (Level 3) ts c [] z); [|cbn; lia|exact E|cbn [level_of]; apply (stops_le 4); [lia|exact S]]. cbn [app].
      destruct z as [|t z]; [reflexivity|]. destruct t; try reflexivity. discriminate.
    + rewrite (IH (Level 3) ts c (t :: r1) z); [|cbn; lia|exact E|exact I]. cbn [app].
      destruct t; try (injection H as <- <-; reflexivity).
      destruct (parse n (Level 4) r1) as [[a r2]|] eqn:E1; [|discriminate]. destruct r2 as [|t r2]; [discriminate|]. destruct t; try discriminate.
      rewrite (IH (Level 4) r1 a (TColon :: r2) z); [|cbn; lia|exact E1|exact I]. cbn [app].
      destruct (parse n (Level 4) r2) as [[b r3]|] eqn:E2; [|discriminate]. injection H as <- <-.
      rewrite (IH (Level 4) r2 b r3 z); [reflexivity|cbn; lia|exact E2|exact S].
  - lia.
  - injection H as <- <-. reflexivity.
  - destruct ts as [|op ts].
    + injection H as <- <-. cbn [app]. destruct z as [|t z]; [reflexivity|]. cbn in S. rewrite (continues_operator _ _ S). reflexivity.
    + cbn [app]. destruct (operator (Datatypes.S k) op).
      * destruct (parse n (Level k) ts) as [[e2 r2]|] eqn:E; [|discriminate]. assert (N : r2 = [] -> r = []) by (intros ->; exact (parse_nil _ _ _ H)).
        rewrite (IH (Level k) ts e2 r2 z); [|cbn; lia|exact E|cbn [level_of]; apply (stops_sub _ _ r); [exact N|apply (stops_le (Datatypes.S k)); [lia|exact S]]].
        apply IH; [cbn; lia|exact H|exact S].
      * injection H as <- <-. reflexivity.
Qed.

(** ** Reading what is put together *)
(** [e] is read at the front, and [z] remains *)
Definition front (k : nat) (ts : list token) (e : expr) (z : list token) : Prop := exists n, parse n (Level k) ts = Some (e, z).

Lemma front_app k ts e z : k <= 4 -> reads k ts e -> stops k [] z -> front k (ts ++ z) e z.
Proof. intros L [n H] S. exists n. exact (parse_app n (Level k) ts e [] z L H S). Qed.

Lemma front_up k ts e z : k < 3 -> front k ts e z -> match z with t :: _ => operator (S k) t = false | [] => True end -> front (S k) ts e z.
Proof.
  intros L [n H] Z. exists (S n). destruct n as [|n]; [discriminate|].
  assert (X : parse (S n) (Rest (S k) e) z = Some (e, z)) by (cbn [parse]; destruct z as [|t z]; [reflexivity|]; rewrite Z; reflexivity).
  destruct k as [|[|[|k]]]; [| | |lia]; remember (S n) as m; cbn [parse]; rewrite H; exact X.
Qed.
Lemma front_cond ts e z : front 3 ts e z -> match z with TQuestion :: _ => False | _ => True end -> front 4 ts e z.
Proof. intros [n H] Z. exists (S n). cbn [parse]. rewrite H. destruct z as [|t z]; [reflexivity|]. destruct t; try reflexivity. contradiction. Qed.

(** an operand, an operator, an operand, and something else *)
Lemma front_bin k ts1 op ts2 e1 e2 z : k < 3 -> operator (S k) op = true -> front k (ts1 ++ op :: ts2) e1 (op :: ts2) -> front k ts2 e2 z ->
  match z with t :: _ => operator (S k) t = false | [] => True end -> front (S k) (ts1 ++ op :: ts2) (EBin op e1 e2) z.
Proof.
  intros L O [n H1] [m H2] Z. exists (S (S (S (n + m)))).
  apply (parse_le _ (S (S (n + m)))) in H1; [|lia]. apply (parse_le _ (S (n + m))) in H2; [|lia].
  assert (X : parse (S (n + m)) (Rest (S k) (EBin op e1 e2)) z = Some (EBin op e1 e2, z)) by (cbn [parse]; destruct z as [|t z]; [reflexivity|]; rewrite Z; reflexivity).
  assert (Y : parse (S (S (n + m))) (Rest (S k) e1) (op :: ts2) = Some (EBin op e1 e2, z)) by (remember (S (n + m)) as q; cbn [parse]; rewrite O, H2; exact X).
  destruct k as [|[|[|k]]]; [| | |lia]; remember (S (S (n + m))) as q; cbn [parse]; rewrite H1; exact Y.
Qed.

Lemma front_if ts c a b ts1 ts2 z : front 3 ts c (TQuestion :: ts1) -> front 4 ts1 a (TColon :: ts2) -> front 4 ts2 b z -> front 4 ts (ECond c a b) z.
Proof.
  intros [n1 H1] [n2 H2] [n3 H3]. exists (S (n1 + n2 + n3)). cbn [parse].
  rewrite (parse_le n1 (n1 + n2 + n3) _ _ _ ltac:(lia) H1), (parse_le n2 (n1 + n2 + n3) _ _ _ ltac:(lia) H2), (parse_le n3 (n1 + n2 + n3) _ _ _ ltac:(lia) H3). reflexivity.
Qed.

Lemma add_cond ts e z : front 2 ts e z -> match z with TLt :: _ | TGt :: _ | TQuestion :: _ => False | _ => True end -> front 4 ts e z.
Proof.
  intros H Z. apply front_cond; [apply front_up; [lia|exact H|]|]; destruct z as [|t z]; try exact I; destruct t; try reflexivity; try contradiction; exact I.
Qed.

(** [x op y ? y : x'] for any end [x'] *)
Lemma general op x y ex ey rest b z : operator 3 op = true -> reads 2 x ex -> reads 2 y ey -> front 4 rest b z ->
  front 4 (x ++ [op] ++ y ++ [TQuestion] ++ y ++ [TColon] ++ rest) (ECond (EBin op ex ey) ey b) z.
Proof.
  intros O Hx Hy Hr. cbn [app]. assert (C2 : continues 2 op = false) by (destruct op; try discriminate; reflexivity).
  apply (front_if _ _ _ _ (y ++ TColon :: rest) rest); [| |exact Hr].
  - apply (front_bin 2 x op (y ++ TQuestion :: y ++ TColon :: rest) ex ey); [lia|exact O| | |reflexivity].
    + apply front_app; [lia|exact Hx|exact C2].
    + apply front_app; [lia|exact Hy|reflexivity].
  - apply add_cond; [|exact I]. apply front_app; [lia|exact Hy|reflexivity].
Qed.

Lemma front_reads k ts e : front k ts e [] <-> reads k ts e.
Proof. reflexivity. Qed.

Lemma expansion_lemma op x y ex ey : operator 3 op = true -> reads 2 x ex -> reads 2 y ey ->
  reads 4 (x ++ [op] ++ y ++ [TQuestion] ++ y ++ [TColon] ++ x) (ECond (EBin op ex ey) ey ex).
Proof. intros O Hx Hy. apply (general op x y ex ey x ex []); [exact O|exact Hx|exact Hy|]. apply add_cond; [exact Hx|exact I]. Qed.

Lemma max_reads_lemma : forall x y ex ey, reads additive x ex -> reads additive y ey -> reads conditional (macro_max x y) (ECond (EBin TLt ex ey) ey ex).
Proof. intros x y ex ey. apply expansion_lemma. reflexivity. Qed.
Lemma min_reads_lemma : forall x y ex ey, reads additive x ex -> reads additive y ey -> reads conditional (macro_min x y) (ECond (EBin TGt ex ey) ey ex).
Proof. intros x y ex ey. apply expansion_lemma. reflexivity. Qed.

Lemma pure_eval e : pure e -> forall st, eval e st = (value e st, st).
Proof.
  unfold value. induction e as [z|x|x|op a IHa b IHb|c IHc a IHa b IHb]; cbn [pure eval]; intros P st; try reflexivity; [contradiction| |].
  - destruct P as [Pa Pb]. rewrite (IHa Pa), (IHb Pb). reflexivity.
  - destruct P as (Pc & Pa & Pb). rewrite (IHc Pc). destruct (Z.eqb _ 0); auto.
Qed.

Lemma max_lemma : forall x y ex ey, reads additive x ex -> reads additive y ey -> pure ex -> pure ey ->
  means (macro_max x y) (fun st => Z.max (value ex st) (value ey st)) /\ means (macro_min x y) (fun st => Z.min (value ex st) (value ey st)).
Proof.
  intros x y ex ey Hx Hy Px Py. split.
  - eexists. split; [exact (max_reads_lemma _ _ _ _ Hx Hy)|]. intros st. cbn [eval]. rewrite !(pure_eval _ Px), !(pure_eval _ Py). cbn [apply].
    destruct (Z.ltb_spec (value ex st) (value ey st)); cbn [Z.eqb]; [rewrite Z.max_r by lia|rewrite Z.max_l by lia]; first [reflexivity|apply pure_eval; assumption].
  - eexists. split; [exact (min_reads_lemma _ _ _ _ Hx Hy)|]. intros st. cbn [eval]. rewrite !(pure_eval _ Px), !(pure_eval _ Py). cbn [apply].
    destruct (Z.ltb_spec (value ey st) (value ex st)); cbn [Z.eqb]; [rewrite Z.min_r by lia|rewrite Z.min_l by lia]; first [reflexivity|apply pure_eval; assumption].
Qed.

(** in parentheses anything is an operand *)
Lemma up_reads k k' ts e : k <= k' -> k' <= 4 -> reads k ts e -> reads k' ts e.
Proof.
  intros L. induction L as [|m L IH]; intros L4 H; [exact H|]. specialize (IH ltac:(lia) H). destruct (Nat.eq_dec m 3) as [->|N].
  - apply front_cond; [exact IH|exact I].
  - apply front_up; [lia|exact IH|exact I].
Qed.
Lemma parens_lemma : forall ts e k, reads conditional ts e -> k <= 4 -> reads k ([TOpen] ++ ts ++ [TClose]) e.
Proof.
  intros ts e k H L. apply (up_reads 0); [lia|exact L|]. destruct (front_app 4 ts e [TClose]) as [n X]; [lia|exact H|reflexivity|].
  exists (S n). cbn [app parse]. rewrite X. reflexivity.
Qed.

(** an operand after or before a use of the macro becomes part of it *)
Lemma after_lemma : forall x y z ex ey ez, reads additive x ex -> reads additive y ey -> reads additive (x ++ [TPlus] ++ z) ez ->
  reads conditional (macro_max x y ++ [TPlus] ++ z) (ECond (EBin TLt ex ey) ey ez).
Proof.
  intros x y z ex ey ez Hx Hy Hz. unfold macro_max. repeat rewrite <- app_assoc.
  apply (general TLt x y ex ey (x ++ [TPlus] ++ z) ez []); [reflexivity|exact Hx|exact Hy|]. apply add_cond; [exact Hz|exact I].
Qed.
Lemma before_lemma : forall x y z ex ey ez, reads additive x ex -> reads additive y ey -> reads additive (z ++ [TPlus] ++ x) ez ->
  reads conditional (z ++ [TPlus] ++ macro_max x y) (ECond (EBin TLt ez ey) ey ex).
Proof.
  intros x y z ex ey ez Hx Hy Hz. unfold macro_max.
  replace (z ++ [TPlus] ++ x ++ [TLt] ++ y ++ [TQuestion] ++ y ++ [TColon] ++ x) with ((z ++ [TPlus] ++ x) ++ [TLt] ++ y ++ [TQuestion] ++ y ++ [TColon] ++ x) by (repeat rewrite <- app_assoc; reflexivity).
  apply (general TLt _ y ez ey x ex []); [reflexivity|exact Hz|exact Hy|]. apply add_cond; [exact Hx|exact I].
Qed.

(** the argument that is the result is evaluated twice *)
Lemma twice_lemma : forall x y ex ey st, reads additive x ex -> reads additive y ey -> pure ey -> (value ey (after ex st) <= value ex st)%Z ->
  exists e, reads conditional (macro_max x y) e /\ eval e st = eval ex (after ex st).
Proof.
  intros x y ex ey st Hx Hy Py H. eexists. split; [exact (max_reads_lemma _ _ _ _ Hx Hy)|]. cbn [eval]. unfold value, after in *.
  destruct (eval ex st) as [v st1]. cbn in H. pose proof (pure_eval _ Py st1) as P. rewrite P. unfold value. cbn [apply].
  destruct (Z.ltb_spec v (fst (eval ey st1))); [cbn in *; lia|]. reflexivity.
Qed.

Lemma not_means ts v e st : reads conditional ts e -> fst (eval e st) <> v st -> ~ means ts v.
Proof. intros R N (e' & R' & H). rewrite (reads_unique _ _ _ _ R R') in N. rewrite H in N. contradiction. Qed.
