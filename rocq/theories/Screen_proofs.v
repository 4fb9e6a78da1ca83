(** Proofs of C134 and C135. *)
From Coq Require Import Lia.
From Verif Require Import Str Outcome History_model Editor_model Screen_model Screen_spec.
Local Open Scope nat_scope.

Section S.
Context (W H : nat).
Hypothesis (HW : 3 < W) (HH : 0 < H).
Notation emit := (emit W H).
Notation emits := (emits W H).
Notation rows_of := (rows_of W).

Lemma emits_app t a b : emits t (a ++ b) = emits (emits t a) b.
Proof. apply fold_left_app. Qed.

(** ** Moving the cursor *)
Lemma ups k : forall t, S (bottom t) + k <= row t + H -> k <= row t -> let t' := emits t (repeat Up k) in
  cells t' = cells t /\ row t' = row t - k /\ col t' = col t /\ bottom t' = bottom t /\ (pending t = false -> pending t' = false).
Proof.
  induction k as [|k IH]; intros t B K; cbn zeta.
  - cbn. repeat split; auto with arith; lia.
  - cbn [repeat]. change (emits t (Up :: repeat Up k)) with (emits (emit t Up) (repeat Up k)).
    assert (R : row (emit t Up) = row t - 1). { cbn [Screen_model.emit row]. destruct (Nat.ltb_spec (S (bottom t) - H) (row t)); [reflexivity|lia]. }
    specialize (IH (emit t Up)). rewrite R in IH. change (bottom (emit t Up)) with (bottom t) in IH. change (cells (emit t Up)) with (cells t) in IH. change (col (emit t Up)) with (col t) in IH.
    destruct IH as (A1 & A2 & A3 & A4 & A5); [lia..|]. split; [exact A1|]. split; [rewrite A2; lia|]. split; [exact A3|]. split; [exact A4|]. intros _. apply A5. reflexivity.
Qed.
Lemma downs k : forall t, row t + k <= bottom t -> let t' := emits t (repeat Down k) in
  cells t' = cells t /\ row t' = row t + k /\ col t' = col t /\ bottom t' = bottom t /\ (pending t = false -> pending t' = false).
Proof.
  induction k as [|k IH]; intros t B; cbn zeta.
  - cbn. repeat split; auto with arith; lia.
  - cbn [repeat]. change (emits t (Down :: repeat Down k)) with (emits (emit t Down) (repeat Down k)).
    assert (R : row (emit t Down) = S (row t)). { cbn [Screen_model.emit row]. destruct (Nat.ltb_spec (row t) (bottom t)); [reflexivity|lia]. }
    specialize (IH (emit t Down)). rewrite R in IH. change (bottom (emit t Down)) with (bottom t) in IH. change (cells (emit t Down)) with (cells t) in IH. change (col (emit t Down)) with (col t) in IH.
    destruct IH as (A1 & A2 & A3 & A4 & A5); [lia..|]. split; [exact A1|]. split; [rewrite A2; lia|]. split; [exact A3|]. split; [exact A4|]. intros _. apply A5. reflexivity.
Qed.
Lemma column k t : k < W -> let t' := emits t ([Return] ++ to_column k) in
  cells t' = cells t /\ row t' = row t /\ col t' = k /\ bottom t' = bottom t /\ pending t' = false.
Proof.
  intros K. cbn zeta. unfold to_column. destruct (Nat.ltb_spec 0 k); cbn; repeat split; lia.
Qed.

Lemma clears n : forall t, 0 < n -> n <= S (row t) -> S (bottom t) + n <= S (row t) + H -> let t' := emits t (clear_lines n) in
  (forall i j, cells t' i j = if (S (row t) <=? i + n) && (i <=? row t) then blank else cells t i j) /\
  S (row t') = S (row t) - n + 1 /\ col t' = 0 /\ bottom t' = bottom t /\ pending t' = false.
Proof.
  induction n as [|n IH]; intros t N R B; [lia|]. cbn zeta. destruct n as [|n].
  - split; [|cbn [clear_lines Screen_model.emits fold_left Screen_model.emit row col bottom pending]; repeat split; lia]. intros i j.
    change (cells (emits t (clear_lines 1)) i j) with (if i =? row t then blank else cells t i j). destruct (Nat.eqb_spec i (row t)), (Nat.leb_spec (S (row t)) (i + 1)), (Nat.leb_spec i (row t)); cbn; try reflexivity; lia.
  - change (clear_lines (S (S n))) with ([EraseRow; Return; Up] ++ clear_lines (S n)). rewrite emits_app.
    set (t1 := emits t [EraseRow; Return; Up]).
    assert (R1 : row t1 = row t - 1). { unfold t1. cbn [Screen_model.emits fold_left Screen_model.emit row bottom]. destruct (Nat.ltb_spec (S (bottom t) - H) (row t)); [reflexivity|lia]. }
    assert (B1 : bottom t1 = bottom t) by reflexivity.
    assert (C1 : forall i j, cells t1 i j = if i =? row t then blank else cells t i j) by reflexivity.
    specialize (IH t1). rewrite R1, B1 in IH. destruct IH as (A1 & A2 & A3 & A4 & A5); [lia|lia|lia|]. split; [|repeat split; try assumption; lia].
    intros i j. rewrite A1, C1. destruct (Nat.leb_spec (S (row t - 1)) (i + S n)), (Nat.leb_spec i (row t - 1)), (Nat.leb_spec (S (row t)) (i + S (S n))), (Nat.leb_spec i (row t)), (Nat.eqb_spec i (row t)); cbn; try reflexivity; lia.
Qed.

(** ** Writing a text from the start of a row *)
Definition at_pos (t : term) (r k : nat) : Prop :=
  if (0 <? k) && (k mod W =? 0) then S (row t) = r + k / W /\ col t = W - 1 /\ pending t = true
  else row t = r + k / W /\ col t = k mod W /\ pending t = false.

Lemma succ_pos k : (S (k mod W) = W /\ (S k) mod W = 0 /\ (S k) / W = S (k / W)) \/ (S (k mod W) < W /\ (S k) mod W = S (k mod W) /\ (S k) / W = k / W).
Proof.
  pose proof (Nat.div_mod k W ltac:(lia)) as E. pose proof (Nat.mod_upper_bound k W ltac:(lia)) as U. destruct (Nat.eq_dec (S (k mod W)) W) as [X|X].
  - left. split; [exact X|]. assert (Y : S k = W * S (k / W) + 0) by lia. split; [symmetry; apply (Nat.mod_unique _ _ (S (k / W))); lia|symmetry; apply (Nat.div_unique _ _ _ 0); lia].
  - right. split; [lia|]. split; [symmetry; apply (Nat.mod_unique _ _ (k / W)); lia|symmetry; apply (Nat.div_unique _ _ _ (S (k mod W))); lia].
Qed.

Lemma put_step t r k c : at_pos t r k -> row t <= bottom t -> let t' := emit t (Put c) in
  at_pos t' r (S k) /\ (forall i j, cells t' i j = if (i =? r + k / W) && (j =? k mod W) then c else cells t i j) /\
  bottom t' = Nat.max (bottom t) (r + k / W) /\ row t' <= bottom t'.
Proof.
  intros P B. cbn zeta. unfold at_pos in P.
  assert (Q : forall t0, row t0 = r + k / W -> col t0 = k mod W -> at_pos (put_here W c t0) r (S k)).
  { intros t0 R C. unfold at_pos, put_here. cbn [row col pending]. rewrite C, R. destruct (succ_pos k) as [(X1 & X2 & X3)|(X1 & X2 & X3)]; rewrite X2, X3.
    - replace (S (k mod W) =? W) with true by (symmetry; apply Nat.eqb_eq; exact X1). cbn. repeat split; lia.
    - replace (S (k mod W) =? W) with false by (symmetry; apply Nat.eqb_neq; lia). cbn. auto. }
  destruct ((0 <? k) && (k mod W =? 0)) eqn:E; destruct P as (R & C & D); cbn [Screen_model.emit]; rewrite D.
  - apply andb_prop in E as [_ E]. apply Nat.eqb_eq in E. split; [apply Q; cbn [next_row row col]; [exact R|lia]|]. cbn [put_here next_row cells row col bottom].
    rewrite <- R, E. split; [reflexivity|]. lia.
  - split; [apply Q; assumption|]. cbn [put_here cells row col bottom]. rewrite <- R, C. split; [reflexivity|]. lia.
Qed.

Lemma pos_eq i j k : j < W -> (i =? k / W) && (j =? k mod W) = (i * W + j =? k).
Proof.
  intros J. pose proof (Nat.div_mod k W ltac:(lia)) as E. destruct (Nat.eqb_spec (i * W + j) k) as [<-|N].
  - rewrite Nat.div_add_l by lia. rewrite (Nat.div_small j W) by lia. rewrite (Nat.add_comm (i * W) j), Nat.mod_add by lia. rewrite (Nat.mod_small j W) by lia. rewrite Nat.add_0_r, !Nat.eqb_refl. reflexivity.
  - destruct (Nat.eqb_spec i (k / W)) as [->|]; [|reflexivity]. destruct (Nat.eqb_spec j (k mod W)) as [->|]; [|reflexivity]. exfalso. lia.
Qed.

Lemma writes text : forall t r k, at_pos t r k -> row t <= bottom t -> let t' := emits t (puts text) in
  at_pos t' r (k + length text) /\
  (forall i j, cells t' i j = if (r <=? i) && (j <? W) && (k <=? (i - r) * W + j) && ((i - r) * W + j <? k + length text) then nth ((i - r) * W + j - k) text blank else cells t i j) /\
  row t' <= bottom t' /\ bottom t <= bottom t' /\ (bottom t' = bottom t \/ bottom t' <= r + (k + length text - 1) / W) /\
  (0 < length text -> r + (k + length text - 1) / W <= bottom t').
Proof.
  induction text as [|c text IH]; intros t r k P B; cbn zeta.
  - cbn [puts map length Screen_model.emits fold_left]. rewrite Nat.add_0_r. split; [exact P|]. split; [|split; [exact B|split; [lia|split; [auto|lia]]]].
    intros i j. destruct (Nat.leb_spec k ((i - r) * W + j)), (Nat.ltb_spec ((i - r) * W + j) k); rewrite ?andb_false_r, ?andb_true_r; try reflexivity; lia.
  - change (emits t (puts (c :: text))) with (emits (emit t (Put c)) (puts text)). destruct (put_step t r k c P B) as (P1 & C1 & B1 & R1).
    destruct (IH _ _ _ P1 R1) as (P2 & C2 & R2 & M2 & B2 & E2). cbn [length]. replace (k + S (length text)) with (S k + length text) by lia. split; [exact P2|]. split; [|split; [exact R2|]].
    + intros i j. rewrite C2, C1. destruct (Nat.leb_spec r i) as [Ri|Ri]; cbn [andb].
      * destruct (Nat.ltb_spec j W) as [J|J]; cbn [andb].
        -- replace (i =? r + k / W) with (i - r =? k / W) by (destruct (Nat.eqb_spec (i - r) (k / W)), (Nat.eqb_spec i (r + k / W)); try reflexivity; lia).
           rewrite (pos_eq (i - r) j k J). set (q := (i - r) * W + j).
           destruct (Nat.leb_spec (S k) q), (Nat.ltb_spec q (S k + length text)), (Nat.leb_spec k q), (Nat.eqb_spec q k); cbn [andb]; try lia; try reflexivity.
           ++ replace (q - k) with (S (q - S k)) by lia. reflexivity.
           ++ replace (q - k) with 0 by lia. reflexivity.
        -- assert (k mod W < W) by (apply Nat.mod_upper_bound; lia). destruct (Nat.eqb_spec j (k mod W)); [lia|]. rewrite andb_false_r. reflexivity.
      * destruct (Nat.eqb_spec i (r + k / W)); [lia|reflexivity].
    + assert (D : k / W <= (S k + length text - 1) / W) by (apply Nat.div_le_mono; lia). split; [lia|]. split; [|intros _]; [lia|].
      destruct text as [|c2 text]; [|cbn [length] in *; lia]. cbn [length Nat.add] in *. replace (S (k + 0) - 1) with k in * by lia. cbn in M2 |- *. cbn in B1. lia.
Qed.

(** the rows of a line *)
Lemma rows_eq line : rows_of line = rows W (s ">> " ++ line).
Proof.
  unfold Screen_model.rows_of, rows. rewrite app_length. change (length prompt) with 3. change (length (s ">> ")) with 3.
  replace (3 + length line + W - 1) with (1 * W + (3 + length line - 1)) by lia. rewrite Nat.div_add_l by lia. reflexivity.
Qed.

(** the prompt and the line, from the start of a row, the rows being blank *)
Lemma show_lemma t r line : displays W t r [] -> row t = r -> col t = 0 -> pending t = false -> row t <= bottom t -> S (bottom t) <= r + H -> rows W (s ">> " ++ line) <= H ->
  let t' := emits t (show line) in displays W t' r (s ">> " ++ line) /\ at_pos t' r (3 + length line) /\ on_screen W H t' r (s ">> " ++ line) /\
  (forall i j, i < r -> cells t' i j = cells t i j).
Proof.
  intros D R C P B S1 Hr. cbn zeta.
  assert (E : emits t (show line) = emits t (puts (s ">> " ++ line))) by (unfold show; rewrite !emits_app; unfold puts; rewrite map_app; rewrite emits_app; reflexivity).
  rewrite E. destruct (writes (s ">> " ++ line) t r 0) as (P2 & C2 & R2 & M2 & B2 & E2).
  - unfold at_pos. cbn. rewrite (Nat.div_small 0 W), (Nat.mod_small 0 W) by lia. repeat split; try assumption; lia.
  - exact B.
  - change (0 + length (s ">> " ++ line)) with (length (s ">> " ++ line)) in *. assert (L : length (s ">> " ++ line) = 3 + length line) by (rewrite app_length; reflexivity).
    split; [|split; [rewrite <- L; exact P2|split]].
    + intros i j J. rewrite C2. replace (r + i - r) with i by lia. destruct (Nat.leb_spec r (r + i)); [|lia]. destruct (Nat.ltb_spec j W); [|lia]. cbn [andb Nat.leb].
      destruct (Nat.ltb_spec (i * W + j) (length (s ">> " ++ line))).
      * rewrite Nat.sub_0_r. reflexivity.
      * rewrite nth_overflow by lia. rewrite D by lia. destruct (i * W + j); reflexivity.
    + unfold on_screen. unfold rows in *. split; [destruct B2 as [->|B2]; lia|]. specialize (E2 ltac:(lia)). lia.
    + intros i j Hi. rewrite C2. destruct (Nat.leb_spec r i); [lia|]. reflexivity.
Qed.

(** the line is cleared, from its last row *)
Lemma clear_lemma t r line : displays W t r (s ">> " ++ line) \/ (displays W t r [] /\ line = []) -> S (row t) = r + rows W (s ">> " ++ line) -> on_screen W H t r (s ">> " ++ line) ->
  let t' := emits t (clear_lines (rows_of line)) in displays W t' r [] /\ row t' = r /\ col t' = 0 /\ pending t' = false /\ bottom t' = bottom t /\
  (forall i j, i < r -> cells t' i j = cells t i j).
Proof.
  intros D R [O1 O2]. cbn zeta. rewrite rows_eq. set (n := rows W (s ">> " ++ line)) in *. assert (N : 0 < n) by (unfold n, rows; lia).
  destruct (clears n t) as (C & R2 & C0 & B2 & P2); [exact N|lia|lia|]. split; [|split; [lia|split; [exact C0|split; [exact P2|split; [exact B2|]]]]].
  - intros i j J. rewrite C. destruct (Nat.leb_spec (S (row t)) (r + i + n)); [|lia]. destruct (Nat.leb_spec (r + i) (row t)); cbn [andb]; [destruct (i * W + j); reflexivity|].
    assert (X : nth (i * W + j) ([] : str) " "%char = " "%char) by (destruct (i * W + j); reflexivity). rewrite X.
    destruct D as [D|[D _]]; [|rewrite D by exact J; exact X]. rewrite D by exact J. apply nth_overflow.
    assert (Y : n <= i) by lia. unfold n, rows in Y. set (l := length (s ">> " ++ line)) in *.
    pose proof (Nat.div_mod (l - 1) W ltac:(lia)) as E. pose proof (Nat.mod_upper_bound (l - 1) W ltac:(lia)). assert (l - 1 < W * S ((l - 1) / W)) by lia.
    assert (W * S ((l - 1) / W) <= W * i) by (apply Nat.mul_le_mono_l; exact Y). lia.
  - intros i j Hi. rewrite C. destruct (Nat.leb_spec (S (row t)) (i + n)); [lia|]. reflexivity.
Qed.

(** where a position is *)
Lemma row_of_position e : cursor_index e <= length (read_str e) ->
  (full W e /\ position e / W = rows W (text_of e)) \/ (~ full W e /\ S (position e / W) <= rows W (text_of e)).
Proof.
  intros L. unfold full, rows, position, text_of. rewrite app_length. change (length (s ">> ")) with 3. destruct (Nat.eq_dec (cursor_index e) (length (read_str e))) as [->|X].
  - replace (3 + length (read_str e) - 1) with (2 + length (read_str e)) by lia. change (3 + length (read_str e)) with (S (2 + length (read_str e))).
    destruct (succ_pos (2 + length (read_str e))) as [(A & B & C)|(A & B & C)]; rewrite B, C; [left|right]; split; try lia.
  - right. split; [lia|]. apply le_n_S. apply Nat.div_le_mono; lia.
Qed.

Definition ready (e : editor) (t : term) (r : nat) : Prop := shown W H e t r \/ fresh W H e t r.
Definition kept (t t' : term) (r : nat) : Prop := forall i j, i < r -> cells t' i j = cells t i j.

Lemma shown_row e t r : shown W H e t r -> row t = r + Nat.min (position e / W) (rows W (text_of e) - 1).
Proof.
  intros (D & O & L & N & F). assert (0 < rows W (text_of e)) by (unfold rows; lia). destruct (row_of_position e L) as [(X & Y)|(X & Y)].
  - specialize (F X). lia.
  - destruct (N X) as ((R & _) & _). lia.
Qed.

Lemma str_eqb_spec a b : str_eqb a b = true <-> a = b.
Proof.
  revert b. induction a as [|x a IH]; intros [|y b]; cbn; split; try discriminate; try reflexivity.
  - intros E. apply andb_prop in E as [E1 E2]. apply Ascii.eqb_eq in E1. apply IH in E2. congruence.
  - intros [= -> ->]. rewrite Ascii.eqb_refl. apply IH. reflexivity.
Qed.

(** a changed line *)
Lemma shown_after e' t r : displays W t r [] -> row t = r -> col t = 0 -> pending t = false -> row t <= bottom t -> S (bottom t) <= r + H -> fits W H e' -> cursor_index e' <= length (read_str e') ->
  let t' := emits (emits t (show (read_str e'))) (repeat Up (rows_of (read_str e') - 1 - (length prompt + cursor_index e') / W) ++ [Return] ++ to_column ((length prompt + cursor_index e') mod W)) in
  shown W H e' t' r /\ kept t t' r.
Proof.
  intros D R C P B S1 F L. cbn zeta. destruct (show_lemma t r (read_str e') D R C P B S1 F) as (D2 & P2 & O2 & K2).
  set (t2 := emits t (show (read_str e'))) in *. change (length prompt + cursor_index e') with (position e'). rewrite rows_eq, emits_app. pose proof (row_of_position _ L) as RP.
  assert (R2 : S (row t2) = r + rows W (s ">> " ++ read_str e')).
  { unfold at_pos in P2. unfold rows. rewrite app_length. change (length (s ">> ")) with 3. replace (3 + length (read_str e') - 1) with (2 + length (read_str e')) by lia. change (3 + length (read_str e')) with (S (2 + length (read_str e'))) in P2.
    destruct (succ_pos (2 + length (read_str e'))) as [(X1 & X2 & X3)|(X1 & X2 & X3)]; rewrite X2, X3 in P2; cbn [Nat.ltb Nat.leb andb Nat.eqb] in P2; lia. }
  destruct O2 as [O1 O2]. change (s ">> " ++ read_str e') with (text_of e') in *. assert (0 < rows W (text_of e')) by (unfold rows; lia). destruct (ups (rows W (text_of e') - 1 - position e' / W) t2) as (U1 & U2 & U3 & U4 & _); [lia|lia|].
  set (t3 := emits t2 (repeat Up (rows W (text_of e') - 1 - position e' / W))) in *.
  destruct (column (position e' mod W) t3) as (V1 & V2 & V3 & V4 & V5); [apply Nat.mod_upper_bound; lia|]. split.
  - unfold shown, displays, cursor_on, on_screen. rewrite V1, U1, V2, U2, V3, V4, U4. split; [exact D2|]. split; [lia|]. split; [exact L|]. split.
    + intros N. destruct RP as [(X & Y)|(X & Y)]; [contradiction|]. repeat split; try assumption; lia.
    + intros X. destruct RP as [(_ & Y)|(Y & _)]; [|contradiction]. lia.
  - intros i j Hi. rewrite V1, U1. apply K2. exact Hi.
Qed.

(** the same line, the cursor being moved *)
Lemma move_lemma e e' t r : ready e t r -> read_str e' = read_str e -> cursor_index e' <= length (read_str e') -> ~ full W e -> ~ full W e' ->
  let t' := emits t (update_line W (read_str e) (cursor_index e) (read_str e') (cursor_index e')) in ready e' t' r /\ kept t t' r.
Proof.
  intros Rd Q L' N N'. cbn zeta. unfold update_line. rewrite (proj2 (str_eqb_spec _ _) Q). change (length prompt + cursor_index e) with (position e). change (length prompt + cursor_index e') with (position e').
  do 2 rewrite emits_app. assert (T : text_of e' = text_of e) by (unfold text_of; rewrite Q; reflexivity). destruct Rd as [(D & O & L & NF & F)|(D & R & E1 & E2 & O)].
  - destruct (row_of_position _ L) as [(X & _)|(_ & RP)]; [contradiction|]. destruct (row_of_position _ L') as [(X & _)|(_ & RP')]; [contradiction|]. rewrite T in RP'. destruct O as [O1 O2]. destruct (NF N) as ((R & C) & P).
    destruct (downs (position e' / W - position e / W) t) as (A1 & A2 & A3 & A4 & A5); [lia|].
    set (t1 := emits t _) in *. destruct (ups (position e / W - position e' / W) t1) as (U1 & U2 & U3 & U4 & U5); [lia|lia|].
    set (t2 := emits t1 _) in *. destruct (column (position e' mod W) t2) as (V1 & V2 & V3 & V4 & V5); [apply Nat.mod_upper_bound; lia|].
    split; [left|intros i j Hi; rewrite V1, U1, A1; reflexivity].
    unfold shown, displays, cursor_on, on_screen. rewrite T, V1, U1, A1, V2, U2, A2, V3, V4, U4, A4. split; [exact D|]. split; [lia|]. split; [exact L'|]. split; [|contradiction].
    intros _. repeat split; try assumption; lia.
  - assert (C' : cursor_index e' = 0) by (rewrite Q, E1 in L'; cbn in L'; lia). unfold position. rewrite E2, C', Nat.sub_diag. cbn [repeat Screen_model.emits fold_left].
    destruct (column ((3 + 0) mod W) t) as (V1 & V2 & V3 & V4 & V5); [apply Nat.mod_upper_bound; lia|].
    split; [right|intros i j Hi; rewrite V1; reflexivity]. unfold fresh, displays, on_screen. rewrite V1, V2, V4. repeat split; try assumption; try apply O. congruence.
Qed.

(** the row of the cursor and what is shown, enough to clear the line *)
Lemma ready_clear e t r : ready e t r -> (displays W t r (text_of e) \/ (displays W t r [] /\ read_str e = [])) /\ on_screen W H t r (text_of e) /\
  row t = r + Nat.min (position e / W) (rows W (text_of e) - 1).
Proof.
  intros [Sh|(D & R & E1 & E2 & O)].
  - pose proof (shown_row _ _ _ Sh) as R. destruct Sh as (D & O & _). auto.
  - assert (X : rows W (text_of e) = 1) by (unfold text_of; rewrite E1; unfold rows; cbn; rewrite Nat.div_small by lia; reflexivity). split; [right; auto|].
    split; [|lia]. unfold on_screen in *. rewrite X. unfold rows in O. cbn in O. rewrite (Nat.div_small 0 W) in O by lia. exact O.
Qed.

Lemma update_lemma e e' t r : ready e t r -> read_str e' <> read_str e -> fits W H e' -> cursor_index e' <= length (read_str e') ->
  let t' := emits t (update_line W (read_str e) (cursor_index e) (read_str e') (cursor_index e')) in ready e' t' r /\ kept t t' r.
Proof.
  intros Rd NQ F' L'. cbn zeta. unfold update_line. destruct (str_eqb (read_str e') (read_str e)) eqn:Q; [apply str_eqb_spec in Q; contradiction|].
  change (length prompt + cursor_index e) with (position e). do 3 rewrite emits_app. pose proof (rows_eq (read_str e)) as RE. change (s ">> " ++ read_str e) with (text_of e) in RE.
  destruct (ready_clear e t r Rd) as (D & O & R). pose proof O as [O1 O2]. assert (0 < rows W (text_of e)) by (unfold rows; lia).
  destruct (downs (rows_of (read_str e) - 1 - position e / W) t) as (A1 & A2 & A3 & A4 & A5); [lia|]. set (t1 := emits t (repeat Down _)) in *.
  destruct (clear_lemma t1 r (read_str e)) as (D2 & R2 & C2 & P2 & B2 & K2).
  - unfold displays in *. rewrite A1. exact D.
  - change (s ">> " ++ read_str e) with (text_of e). lia.
  - unfold on_screen. rewrite A4. exact O.
  - set (t2 := emits t1 (clear_lines _)) in *. destruct (shown_after e' t2 r D2 R2 C2 P2) as (S2 & K3); [lia|lia|exact F'|exact L'|]. split; [left; exact S2|].
    intros i j Hi. rewrite K3 by exact Hi. rewrite K2 by exact Hi. rewrite A1. reflexivity.
Qed.

(** a command of the history *)
Lemma recall_lemma e e' t r : ready e t r -> in_last_row W e -> fits W H e' -> cursor_index e' = length (read_str e') ->
  let t' := emits t (recall W (read_str e) (read_str e')) in ready e' t' r /\ kept t t' r.
Proof.
  intros Rd LR F' L'. cbn zeta. unfold recall. rewrite emits_app. unfold in_last_row in LR. destruct (ready_clear e t r Rd) as (D & O & R). assert (0 < rows W (text_of e)) by (unfold rows; lia).
  destruct (clear_lemma t r (read_str e) D) as (D2 & R2 & C2 & P2 & B2 & K2); [change (s ">> " ++ read_str e) with (text_of e); lia|exact O|]. set (t2 := emits t _) in *. destruct O as [O1 O2].
  destruct (show_lemma t2 r (read_str e') D2 R2 C2 P2) as (D3 & P3 & O3 & K3); [lia|lia|exact F'|]. split.
  - left. split; [exact D3|]. split; [exact O3|]. split; [lia|]. unfold full, cursor_on, position, text_of, rows. rewrite app_length, L'. change (length (s ">> ")) with 3. unfold at_pos in P3.
    destruct (Nat.eqb_spec ((3 + length (read_str e')) mod W) 0) as [Q|Q]; cbn [Nat.ltb Nat.leb Nat.add andb] in P3.
    + split; [intros N; exfalso; apply N; auto|]. intros _. replace (3 + length (read_str e') - 1) with (2 + length (read_str e')) by lia. change (3 + length (read_str e')) with (S (2 + length (read_str e'))) in *.
      destruct (succ_pos (2 + length (read_str e'))) as [(X1 & X2 & X3)|(X1 & X2 & X3)]; [|lia]. cbn [Nat.add] in *. lia.
    + split; [|intros [_ X]; contradiction]. intros _. destruct P3 as (X1 & X2 & X3). auto.
  - intros i j Hi. rewrite K3 by exact Hi. apply K2. exact Hi.
Qed.

(** Enter and Ctrl+C *)
Lemma newline_lemma e e' t r : ready e t r -> in_last_row W e -> read_str e' = [] -> cursor_index e' = 0 ->
  let t' := emits t [NewLine] in exists r', r <= r' /\ ready e' t' r' /\ kept t t' r.
Proof.
  intros Rd LR E1' E2'. cbn zeta. unfold in_last_row in LR. exists (S (row t)). destruct (ready_clear e t r Rd) as (D & [O1 O2] & R). assert (0 < rows W (text_of e)) by (unfold rows; lia).
  assert (R2 : displays W t (S (row t)) []).
  { intros i j J. replace (nth (i * W + j) ([] : str) " "%char) with " "%char by (destruct (i * W + j); reflexivity). replace (S (row t) + i) with (r + (rows W (text_of e) + i)) by lia.
    destruct D as [D|[D _]]; rewrite D by exact J; [|destruct ((rows W (text_of e) + i) * W + j); reflexivity]. apply nth_overflow. set (l := length (text_of e)) in *. unfold rows. fold l.
    pose proof (Nat.div_mod (l - 1) W ltac:(lia)) as E. pose proof (Nat.mod_upper_bound (l - 1) W ltac:(lia)). nia. }
  split; [lia|]. split; [|intros i j Hi; reflexivity]. right. unfold fresh, displays, on_screen. cbn [Screen_model.emits fold_left Screen_model.emit next_row cells row bottom].
  split; [exact R2|]. split; [reflexivity|]. split; [exact E1'|]. split; [exact E2'|]. unfold rows. cbn. rewrite (Nat.div_small 0 W) by lia. lia.
Qed.

Lemma ready_same e e' t r : read_str e' = read_str e -> cursor_index e' = cursor_index e -> ready e t r -> ready e' t r.
Proof. unfold ready, shown, fresh, full, text_of, position. intros -> ->. auto. Qed.
Lemma ready_le e t r : ready e t r -> cursor_index e <= length (read_str e).
Proof. intros [(_ & _ & L & _)|(_ & _ & -> & -> & _)]; [exact L|cbn; lia]. Qed.

Lemma erase_length (l : str) i : i < length l -> length (erase_at l i) = length l - 1.
Proof. intros L. unfold erase_at. rewrite app_length, firstn_length, skipn_length. lia. Qed.

Definition step_ok (e e' : editor) (t t' : term) (r : nat) : Prop := exists r', r <= r' /\ ready e' t' r' /\ kept t t' r.

Lemma same_ok e e' t r : read_str e' = read_str e -> cursor_index e' = cursor_index e -> ready e t r -> step_ok e e' t (emits t []) r.
Proof. intros A B R. exists r. split; [lia|]. split; [apply (ready_same e e'); assumption|]. intros i j _. reflexivity. Qed.
Lemma update_ok e e' t r : ready e t r -> read_str e' <> read_str e -> fits W H e' -> cursor_index e' <= length (read_str e') ->
  step_ok e e' t (emits t (update_line W (read_str e) (cursor_index e) (read_str e') (cursor_index e'))) r.
Proof. intros R F F' L. destruct (update_lemma e e' t r R F F' L). exists r. auto. Qed.
Lemma move_ok e e' t r : ready e t r -> read_str e' = read_str e -> ~ full W e /\ ~ full W e' -> cursor_index e' <= length (read_str e') ->
  step_ok e e' t (emits t (update_line W (read_str e) (cursor_index e) (read_str e') (cursor_index e'))) r.
Proof. intros R Q [N N'] L. destruct (move_lemma e e' t r R Q L N N'). exists r. auto. Qed.
Lemma recall_ok e e' t r : ready e t r -> in_last_row W e -> fits W H e' -> cursor_index e' = length (read_str e') -> step_ok e e' t (emits t (recall W (read_str e) (read_str e'))) r.
Proof. intros R F F' L. destruct (recall_lemma e e' t r R F F' L). exists r. auto. Qed.
Lemma newline_ok e e' t r : ready e t r -> in_last_row W e -> read_str e' = [] -> cursor_index e' = 0 -> step_ok e e' t (emits t [NewLine]) r.
Proof. apply newline_lemma. Qed.

Lemma previous_ok e w res t r : key_previous e w = Ret res -> ready e t r -> in_last_row W e -> fits W H (snd res) ->
  step_ok e (snd res) t (emits t (match get_previous_command (hist e) with Ret (_ :: _, _) => recall W (read_str e) (read_str (snd res)) | _ => [] end)) r.
Proof.
  unfold key_previous. intros K R LR F. destruct (get_previous_command (hist e)) as [[[|c prev] h]| | | |]; cbn [obind fst snd] in K; try discriminate.
  - injection K as <-. apply same_ok; [reflexivity..|exact R].
  - unfold compute_lines_needed in K. destruct (w =? 0)%Z; cbn [obind] in K; [discriminate|]. injection K as <-. apply recall_ok; [exact R|exact LR|exact F|reflexivity].
Qed.
Lemma next_ok e w res t r : key_next e w = Ret res -> ready e t r -> in_last_row W e -> fits W H (snd res) ->
  step_ok e (snd res) t (emits t (recall W (read_str e) (read_str (snd res)))) r.
Proof.
  unfold key_next. intros K R LR F. destruct (get_next_command (hist e)) as [[next h]| | | |]; cbn [obind fst snd] in K; try discriminate.
  unfold compute_lines_needed in K. destruct (w =? 0)%Z; cbn [obind] in K; [discriminate|]. injection K as <-. apply recall_ok; [exact R|exact LR|exact F|reflexivity].
Qed.

Lemma step_lemma e ev res t r : editor_step e ev = Ret res -> ready e t r -> fits W H (snd res) -> (leaves e ev -> in_last_row W e) -> (moves e ev -> ~ full W e /\ ~ full W (snd res)) ->
  step_ok e (snd res) t (emits t (output W e ev (snd res))) r.
Proof.
  intros K R F' LV MV. pose proof (ready_le _ _ _ R) as L. unfold editor_step in K. unfold output. unfold leaves in LV. unfold moves in MV. destruct (at_ e) as [| | |k].
  - destruct (Ascii.eqb_spec (ch ev) ESC). { injection K as <-. apply same_ok; [reflexivity..|exact R]. }
    destruct (Ascii.eqb (ch ev) LF || Ascii.eqb (ch ev) CR) eqn:Q1.
    { injection K as <-. apply newline_ok; [exact R| |reflexivity..]. apply LV. apply orb_prop in Q1 as [Q|Q]; apply Ascii.eqb_eq in Q; rewrite Q; cbn; auto. }
    destruct (Ascii.eqb (ch ev) BS || Ascii.eqb (ch ev) DEL) eqn:Q2.
    { unfold key_backspace in K. destruct (Nat.ltb_spec 0 (cursor_index e)).
      - destruct (Nat.ltb_spec (length (read_str e)) (cursor_index e)); [discriminate|]. injection K as <-. apply update_ok; [exact R|cbn [snd start_ read_str cursor_index]; intros X; apply (f_equal (@length _)) in X; rewrite erase_length in X by lia; lia|exact F'|]. cbn [snd start_ read_str cursor_index]. rewrite erase_length by lia. lia.
      - injection K as <-. apply same_ok; [reflexivity..|exact R]. }
    destruct (Ascii.eqb_spec (ch ev) ETX) as [Q3|Q3].
    { injection K as <-. apply newline_ok; [exact R| |reflexivity..]. apply LV. rewrite Q3. cbn. auto. }
    unfold key_char in K. destruct (Nat.ltb_spec (length (read_str e)) (cursor_index e)); [discriminate|]. injection K as <-. apply update_ok; [exact R|cbn [snd start_ read_str cursor_index]; intros X; apply (f_equal (@length _)) in X; rewrite app_length, firstn_length in X; cbn [length] in X; rewrite skipn_length in X; lia|exact F'|].
    cbn [snd start_ read_str cursor_index]. rewrite app_length, firstn_length. cbn [length]. rewrite skipn_length. lia.
  - injection K as <-. apply same_ok; [reflexivity..|exact R].
  - destruct (Ascii.eqb_spec (ch ev) "A") as [Q|]. { apply (previous_ok _ _ _ _ _ K R); [apply LV; rewrite Q; cbn; auto|exact F']. }
    destruct (Ascii.eqb_spec (ch ev) "B") as [Q|]. { apply (next_ok _ _ _ _ _ K R); [apply LV; rewrite Q; cbn; auto|exact F']. }
    destruct (Ascii.eqb_spec (ch ev) "D") as [Q|].
    { injection K as <-. destruct (Nat.ltb_spec 0 (cursor_index e)).
      - apply move_ok; [exact R|reflexivity|apply MV; rewrite Q; cbn; auto|]. cbn [snd start_ read_str cursor_index]. destruct (Nat.ltb_spec 0 (cursor_index e)); lia.
      - apply same_ok; [reflexivity| |exact R]. cbn [snd start_ read_str cursor_index]. destruct (Nat.ltb_spec 0 (cursor_index e)); lia. }
    destruct (Ascii.eqb_spec (ch ev) "C") as [Q|].
    { injection K as <-. apply move_ok; [exact R|reflexivity|apply MV; rewrite Q; cbn; auto|]. cbn [snd start_ read_str cursor_index]. destruct (Nat.ltb_spec (cursor_index e) (length (read_str e))); lia. }
    cbn [orb].
    destruct (Ascii.eqb_spec (ch ev) "2") as [Q|]. { injection K as <-. rewrite Q. apply same_ok; [reflexivity..|exact R]. }
    destruct (Ascii.eqb_spec (ch ev) "3") as [Q|]. { injection K as <-. rewrite Q. apply same_ok; [reflexivity..|exact R]. }
    destruct (Ascii.eqb_spec (ch ev) "5") as [Q|]. { injection K as <-. rewrite Q. apply same_ok; [reflexivity..|exact R]. }
    destruct (Ascii.eqb_spec (ch ev) "6") as [Q|]. { injection K as <-. rewrite Q. apply same_ok; [reflexivity..|exact R]. }
    destruct (Ascii.eqb_spec (ch ev) "H") as [Q|]. { injection K as <-. apply move_ok; [exact R|reflexivity|apply MV; rewrite Q; cbn; auto|]. cbn. lia. }
    destruct (Ascii.eqb_spec (ch ev) "F") as [Q|]. { injection K as <-. apply move_ok; [exact R|reflexivity|apply MV; rewrite Q; cbn; auto|]. cbn. lia. }
    injection K as <-. apply same_ok; [reflexivity..|exact R].
  - destruct (Ascii.eqb_spec k "2"). { injection K as <-. apply same_ok; [reflexivity..|exact R]. }
    destruct (Ascii.eqb_spec (ch ev) "~") as [Q|]; cbn [orb negb]. 2: { injection K as <-. apply same_ok; [reflexivity..|exact R]. }
    cbn [negb] in K. destruct (Ascii.eqb_spec k "3").
    { unfold key_delete in K. destruct (Nat.ltb_spec (cursor_index e) (length (read_str e))); injection K as <-.
      - apply update_ok; [exact R|cbn [snd start_ read_str cursor_index]; intros X; apply (f_equal (@length _)) in X; rewrite erase_length in X by lia; lia|exact F'|]. cbn [snd start_ read_str cursor_index]. rewrite erase_length by lia. lia.
      - apply same_ok; [reflexivity..|exact R]. }
    destruct (Ascii.eqb_spec k "5") as [Q5|]. { apply (previous_ok _ _ _ _ _ K R); [apply LV; rewrite Q5; cbn; auto|exact F']. }
    destruct (Ascii.eqb_spec k "6") as [Q6|]. { apply (next_ok _ _ _ _ _ K R); [apply LV; rewrite Q6; cbn; auto|exact F']. }
    injection K as <-. apply same_ok; [reflexivity..|exact R].
Qed.

Lemma run_lemma evs : forall e t r, ready e t r -> smooth W H e evs ->
  exists e' t' r', screen_run W H e t evs = Ret (e', t') /\ r <= r' /\ ready e' t' r' /\ kept t t' r.
Proof.
  induction evs as [|ev evs IH]; intros e t r R [F Sm].
  - exists e, t, r. repeat split; auto. 
  - destruct Sm as [LV Sm]. destruct (editor_step e ev) as [[d e1]| | | |] eqn:K; try contradiction. destruct Sm as [MV Sm].
    assert (F1 : fits W H e1) by (destruct evs; apply Sm). destruct (step_lemma e ev (d, e1) t r K R F1 LV MV) as (r1 & L1 & R1 & K1). cbn [snd] in *.
    destruct (IH e1 _ r1 R1 Sm) as (e' & t' & r' & E & L' & R' & K'). exists e', t', r'. cbn [screen_run]. rewrite K. cbn [obind snd]. split; [exact E|]. split; [lia|]. split; [exact R'|].
    intros i j Hi. rewrite K' by lia. apply K1. exact Hi.
Qed.
End S.
