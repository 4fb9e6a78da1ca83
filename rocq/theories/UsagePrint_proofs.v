(** Proofs for C122, C123 and C124: what printUsage writes. *)
From Verif Require Import Usage_model Usage_spec UsageIter_proofs UsageWrap_proofs.
From Coq Require Import Lia ZifyBool ZifyNat ZifyN.
Local Open Scope Z_scope.

(** ** The widths of the columns *)
Definition part_wise {A} (f : A -> part -> A) (a : A) (rows : list (list part)) : A := fold_left (fun acc row => fold_left f row acc) rows a.
Lemma part_wise_flat {A} (f : A -> part -> A) rows : forall a, part_wise f a rows = fold_left f (concat rows) a.
Proof. induction rows as [|r rows IH]; intro a; [reflexivity|]. cbn [concat]. rewrite fold_left_app. apply IH. Qed.
Lemma measure_flat th rows : measure th rows = fold_left (measure_part th) (concat rows) (0, repeat 0 8).
Proof. exact (part_wise_flat (measure_part th) rows (0, repeat 0 8)). Qed.

Lemma col_set_length l c v : 0 <= c < 8 -> length l = 8%nat -> length (col_set l c v) = 8%nat.
Proof. intros H L. unfold col_set. rewrite app_length, firstn_length. cbn [length]. rewrite skipn_length. lia. Qed.
Lemma col_set_at l c v d : 0 <= c < 8 -> length l = 8%nat -> 0 <= d -> col_at (col_set l c v) d = if d =? c then v else col_at l d.
Proof.
  intros H L D. unfold col_at, col_set. destruct (Z.eqb_spec d c) as [->|N].
  - rewrite app_nth2 by (rewrite firstn_length; lia). rewrite firstn_length. replace (Z.to_nat c - Nat.min (Z.to_nat c) (length l))%nat with 0%nat by lia. reflexivity.
  - destruct (Z_lt_le_dec d c).
    + rewrite app_nth1 by (rewrite firstn_length; lia). rewrite <- (firstn_skipn (Z.to_nat c) l) at 2. rewrite app_nth1 by (rewrite firstn_length; lia). reflexivity.
    + rewrite app_nth2 by (rewrite firstn_length; lia). rewrite firstn_length. replace (Z.to_nat d - Nat.min (Z.to_nat c) (length l))%nat with (S (Z.to_nat d - S (Z.to_nat c))) by lia. cbn [nth].
      rewrite <- (firstn_skipn (S (Z.to_nat c)) l) at 2. rewrite app_nth2 by (rewrite firstn_length; lia). rewrite firstn_length. f_equal. lia.
Qed.

(** after some parts: the last column, and the greatest of the widths counted *)
Definition counted (th : Z) (p : part) : bool := (pcol p <? 8) && (pscreen p <? th) && in_table p.
Definition measured_ok (th : Z) (ps : list part) (m : Z * list Z) : Prop :=
  0 <= fst m <= 7 /\ length (snd m) = 8%nat /\ (forall p, In p ps -> pcol p < 8 -> pcol p <= fst m) /\ (fst m = 0 \/ exists p, In p ps /\ pcol p = fst m) /\
  (forall d, 0 <= d < 8 -> 0 <= col_at (snd m) d /\ (col_at (snd m) d = 0 \/ exists p, In p ps /\ counted th p = true /\ pcol p = d /\ pscreen p = col_at (snd m) d) /\
     forall p, In p ps -> counted th p = true -> pcol p = d -> pscreen p <= col_at (snd m) d).

Lemma measured_step th ps m p : 0 <= pcol p -> measured_ok th ps m -> measured_ok th (ps ++ [p]) (measure_part th m p).
Proof.
  intros P (H1 & H2 & H3 & H4 & H5).
  assert (In1 : forall q, In q ps -> In q (ps ++ [p])) by (intros q I; apply in_or_app; left; exact I). assert (In2 : In p (ps ++ [p])) by (apply in_or_app; right; left; reflexivity).
  unfold measure_part, maxcolumns. destruct (pcol p <? 8) eqn:E.
  - assert (Last : 0 <= upmax (fst m) (pcol p) <= 7 /\ (forall q, In q (ps ++ [p]) -> pcol q < 8 -> pcol q <= upmax (fst m) (pcol p)) /\ (upmax (fst m) (pcol p) = 0 \/ exists q, In q (ps ++ [p]) /\ pcol q = upmax (fst m) (pcol p))).
    { unfold upmax. destruct (pcol p <=? fst m) eqn:U; (split; [lia|]); split.
      - intros q I Q. apply in_app_or in I. destruct I as [I|[<-|[]]]; [exact (H3 q I Q)|lia].
      - destruct H4 as [H4|(q & I & Q)]; [left; exact H4|right; exists q; split; [exact (In1 q I)|exact Q]].
      - intros q I Q. apply in_app_or in I. destruct I as [I|[<-|[]]]; [specialize (H3 q I Q); lia|lia].
      - right. exists p. split; [exact In2|reflexivity]. }
    destruct Last as (L1 & L2 & L3).
    destruct ((pscreen p <? th) && in_table p)%bool eqn:C.
    + split; [exact L1|]. split; [apply col_set_length; lia|]. split; [exact L2|]. split; [exact L3|]. cbn [fst snd]. intros d D. rewrite col_set_at by lia. destruct (H5 d D) as (A & B & Cc). destruct (Z.eqb_spec d (pcol p)) as [->|N].
      * unfold upmax. destruct (pscreen p <=? col_at (snd m) (pcol p)) eqn:U.
        -- split; [exact A|]. split; [destruct B as [B|(q & I & Q)]; [left; exact B|right; exists q; split; [exact (In1 q I)|exact Q]]|]. intros q I Q1 Q2. apply in_app_or in I. destruct I as [I|[<-|[]]]; [exact (Cc q I Q1 Q2)|lia].
        -- split; [lia|]. split; [right; exists p; split; [exact In2|]; split; [unfold counted; rewrite E; exact C|]; split; reflexivity|]. intros q I Q1 Q2. apply in_app_or in I. destruct I as [I|[<-|[]]]; [specialize (Cc q I Q1 Q2); lia|lia].
      * split; [exact A|]. split; [destruct B as [B|(q & I & Q)]; [left; exact B|right; exists q; split; [exact (In1 q I)|exact Q]]|]. intros q I Q1 Q2. apply in_app_or in I. destruct I as [I|[<-|[]]]; [exact (Cc q I Q1 Q2)|congruence].
    + split; [exact L1|]. split; [exact H2|]. split; [exact L2|]. split; [exact L3|]. cbn [fst snd]. intros d D. destruct (H5 d D) as (A & B & Cc). split; [exact A|]. split; [destruct B as [B|(q & I & Q)]; [left; exact B|right; exists q; split; [exact (In1 q I)|exact Q]]|]. intros q I Q1 Q2. apply in_app_or in I. destruct I as [I|[<-|[]]]; [exact (Cc q I Q1 Q2)|]. unfold counted in Q1. rewrite E in Q1. cbn [andb] in Q1. congruence.
  - split; [exact H1|]. split; [exact H2|]. split; [|split].
    + intros q I Q. apply in_app_or in I. destruct I as [I|[<-|[]]]; [exact (H3 q I Q)|lia].
    + destruct H4 as [H4|(q & I & Q)]; [left; exact H4|right; exists q; split; [exact (In1 q I)|exact Q]].
    + intros d D. destruct (H5 d D) as (A & B & Cc). split; [exact A|]. split; [destruct B as [B|(q & I & Q)]; [left; exact B|right; exists q; split; [exact (In1 q I)|exact Q]]|]. intros q I Q1 Q2. apply in_app_or in I. destruct I as [I|[<-|[]]]; [exact (Cc q I Q1 Q2)|lia].
Qed.
Lemma measure_ok th rows : (forall p, In p (concat rows) -> 0 <= pcol p) -> measured_ok th (concat rows) (measure th rows).
Proof.
  rewrite measure_flat. generalize (concat rows). intros ps H.
  assert (G : forall qs m done, measured_ok th done m -> (forall p, In p qs -> 0 <= pcol p) -> measured_ok th (done ++ qs) (fold_left (measure_part th) qs m)).
  { induction qs as [|q qs IH]; intros m done K P; [rewrite app_nil_r; exact K|]. cbn [fold_left]. replace (done ++ q :: qs) with ((done ++ [q]) ++ qs) by (rewrite <- app_assoc; reflexivity). apply IH; [apply measured_step; [apply P; left; reflexivity|exact K]|intros p I; apply P; right; exact I]. }
  apply (G ps (0, repeat 0 8) []); [|exact H]. split; [cbn; lia|]. split; [reflexivity|]. split; [intros p []|]. split; [left; reflexivity|]. cbn [fst snd]. intros d D.
  assert (Z0 : col_at (repeat 0 8) d = 0) by (unfold col_at; apply nth_repeat). rewrite Z0. split; [lia|]. split; [left; reflexivity|]. intros p [].
Qed.

Lemma fold_add l : forall a, fold_left Z.add l a = a + fold_left Z.add l 0.
Proof. induction l as [|x l IH]; intro a; cbn [fold_left]; [lia|]. rewrite (IH (a + x)), (IH (0 + x)). lia. Qed.
Lemma fold_upmax l : forall a, a <= fold_left upmax l a /\ (forall x, In x l -> x <= fold_left upmax l a) /\ (fold_left upmax l a = a \/ In (fold_left upmax l a) l).
Proof.
  induction l as [|y l IH]; intro a; cbn [fold_left]; [split; [lia|]; split; [intros x []|left; reflexivity]|]. destruct (IH (upmax a y)) as (A & B & C).
  assert (U : a <= upmax a y /\ y <= upmax a y /\ (upmax a y = a \/ upmax a y = y)) by (unfold upmax; destruct (y <=? a) eqn:E; lia).
  split; [lia|]. split; [intros x [<-|I]; [lia|exact (B x I)]|]. destruct C as [C|C]; [|right; right; exact C]. destruct U as (_ & _ & [U|U]); [left; congruence|right; left; congruence].
Qed.
Lemma sum_pos l : 0 < fold_left Z.add l 0 -> exists x, In x l /\ 0 < x.
Proof. induction l as [|y l IH]; cbn [fold_left]; intro H; [lia|]. rewrite fold_add in H. destruct (Z_lt_le_dec 0 y) as [K|K]; [exists y; split; [left; reflexivity|exact K]|]. destruct IH as (x & I & X); [lia|]. exists x. split; [right; exact I|exact X]. Qed.

Lemma widest_less th rows : (forall p, In p (concat rows) -> 0 <= pcol p) -> 0 < left_width (fst (measure th rows)) (snd (measure th rows)) -> 0 < widest (fst (measure th rows)) (snd (measure th rows)) < th.
Proof.
  intros H L. destruct (measure_ok th rows H) as (H1 & H2 & H3 & _ & H5). remember (measure th rows) as m eqn:Em. clear Em. unfold left_width, widest in *.
  destruct (sum_pos _ L) as (x & I & X). destruct (fold_upmax (firstn (Z.to_nat (fst m)) (snd m)) 0) as (A & B & C). specialize (B x I). split; [lia|]. destruct C as [C|C]; [lia|].
  set (v := fold_left upmax (firstn (Z.to_nat (fst m)) (snd m)) 0) in *. assert (In v (snd m)) by (rewrite <- (firstn_skipn (Z.to_nat (fst m)) (snd m)); apply in_or_app; left; exact C).
  apply (In_nth _ _ 0) in H0. destruct H0 as (k & K & E). destruct (H5 (Z.of_nat k) ltac:(lia)) as (_ & D & _). unfold col_at in D. rewrite Nat2Z.id, E in D. destruct D as [D|(p & _ & Q & _ & Q2)]; [lia|]. unfold counted in Q. lia.
Qed.

Lemma widths_loop_ret fuel : forall width th rows, 1 <= width -> (forall p, In p (concat rows) -> 0 <= pcol p) -> th < Z.of_nat fuel -> (0 < fuel)%nat ->
  exists t, widths_loop fuel width th rows = Ret (measure t rows) /\ left_width (fst (measure t rows)) (snd (measure t rows)) <= width /\ t <= th.
Proof.
  induction fuel as [|f IH]; intros width th rows W P F F0; [lia|]. cbn [widths_loop]. destruct (width <? left_width (fst (measure th rows)) (snd (measure th rows))) eqn:E; [|exists th; split; [reflexivity|]; split; lia].
  pose proof (widest_less th rows P ltac:(lia)) as K. destruct (IH width (widest (fst (measure th rows)) (snd (measure th rows))) rows W P ltac:(lia) ltac:(lia)) as (t & A & B & C). exists t. split; [exact A|]. split; [exact B|lia].
Qed.
Lemma column_widths_ret width rows : 1 <= width -> (forall p, In p (concat rows) -> 0 <= pcol p) -> exists t, column_widths width rows = Ret (measure t rows) /\ left_width (fst (measure t rows)) (snd (measure t rows)) <= width /\ t <= 10000.
Proof. intros W P. apply widths_loop_ret; [exact W|exact P|rewrite Z2Nat.id; lia|lia]. Qed.

(** ** Interleavings *)
Lemma interleaved_one a x b : (forall u, In u a -> u = []) -> (forall u, In u b -> u = []) -> interleaved (a ++ x :: b) x.
Proof.
  intros A B. induction x as [|c x IH].
  - apply interleaved_nil. intros t I. apply in_app_or in I. destruct I as [I|[<-|I]]; [exact (A t I)|reflexivity|exact (B t I)].
  - apply interleaved_cons. exact IH.
Qed.
Lemma interleaved_snoc ts s : interleaved ts s -> forall a t b x, ts = a ++ t :: b -> interleaved (a ++ (t ++ x) :: b) (s ++ x).
Proof.
  induction 1 as [ts H|a0 c t0 b0 s I IH]; intros a t b x E.
  - subst ts. rewrite (H t) by (apply in_or_app; right; left; reflexivity). cbn [app]. apply interleaved_one; intros u K; apply H; apply in_or_app; [left|right; right]; exact K.
  - destruct (app_eq_app _ _ _ _ E) as (l & [(E1 & E2)|(E1 & E2)]).
    + destruct l as [|y l].
      * rewrite app_nil_r in E1. subst a0. cbn [app] in E2. injection E2 as -> ->. cbn [app]. apply interleaved_cons. exact (IH a t0 b0 x eq_refl).
      * cbn [app] in E2. injection E2 as <- ->. subst a0. specialize (IH a t (l ++ t0 :: b0) x). rewrite <- app_assoc in IH. specialize (IH eq_refl).
        change (a ++ (t ++ x) :: l ++ (c :: t0) :: b0) with (a ++ ((t ++ x) :: l) ++ (c :: t0) :: b0). rewrite app_assoc. cbn [app]. apply interleaved_cons. rewrite <- app_assoc. exact IH.
    + destruct l as [|y l].
      * rewrite app_nil_r in E1. subst a. cbn [app] in E2. injection E2 as <- <-. cbn [app]. apply interleaved_cons. exact (IH a0 t0 b0 x eq_refl).
      * cbn [app] in E2. injection E2 as <- ->. subst a. rewrite <- app_assoc. cbn [app]. apply interleaved_cons. specialize (IH (a0 ++ t0 :: l) t b x). rewrite <- !app_assoc in IH. exact (IH eq_refl).
Qed.

(** appending to the text of column [c] *)
Definition upd (ts : list str) (c : nat) (x : str) : list str := firstn c ts ++ (nth c ts [] ++ x) :: skipn (S c) ts.
Lemma split_nth (ts : list str) c : (c < length ts)%nat -> ts = firstn c ts ++ nth c ts [] :: skipn (S c) ts.
Proof. revert c. induction ts as [|t ts IH]; intros c L; [cbn in L; lia|]. destruct c as [|c]; [reflexivity|]. cbn [firstn nth skipn app]. f_equal. apply IH. cbn in L. lia. Qed.
Lemma upd_interleaved ts s c x : (c < length ts)%nat -> interleaved ts s -> interleaved (upd ts c x) (s ++ x).
Proof. intros L H. apply (interleaved_snoc ts s H). apply split_nth. exact L. Qed.
Lemma upd_length ts c x : (c < length ts)%nat -> length (upd ts c x) = length ts.
Proof. intro L. unfold upd. rewrite app_length, firstn_length. cbn [length]. rewrite skipn_length. lia. Qed.
Lemma upd_nth ts c x d : (c < length ts)%nat -> nth d (upd ts c x) [] = if (d =? c)%nat then nth c ts [] ++ x else nth d ts [].
Proof.
  intro L. unfold upd. destruct (Nat.eqb_spec d c) as [->|N].
  - rewrite app_nth2 by (rewrite firstn_length; lia). rewrite firstn_length. replace (c - Nat.min c (length ts))%nat with 0%nat by lia. reflexivity.
  - transitivity (nth d (firstn c ts ++ nth c ts [] :: skipn (S c) ts) []); [|rewrite <- (split_nth ts c L); reflexivity]. destruct (Nat.lt_ge_cases d c) as [K|K].
    + rewrite !app_nth1 by (rewrite firstn_length; lia). reflexivity.
    + rewrite !app_nth2 by (rewrite firstn_length; lia). rewrite firstn_length. replace (d - Nat.min c (length ts))%nat with (S (d - S c)) by lia. reflexivity.
Qed.

(** ** A row *)
Section Row.
  Variables (l : layout) (tb : bool).
  Hypothesis Hlast : 0 <= llast l <= 7.
  Hypothesis Hown : llast l = 0 -> lown l = false.
  Definition pend (st : pstate) (c : nat) : str := if (c =? 0)%nat then waiting (pinter st) else if (Z.of_nat c =? llast l) then waiting (plast st) else [].
  Record inv (x : str) (D : nat -> str) (st : pstate) : Prop := {
    inv_last : ring (plast st) /\ 2 <= wwidth (plast st);
    inv_inter : ring (pinter st) /\ 2 <= wwidth (pinter st);
    inv_direct : tb = true -> 0 < llast l -> waiting (pinter st) = [];
    inv_unused : llast l = 0 -> waiting (plast st) = [];
    inv_text : exists ts, length ts = 8%nat /\ interleaved ts (ink x) /\ (forall c, (c < 8)%nat -> nth c ts [] ++ pend st c = D c) }.

  Definition add (D : nat -> str) (p : part) : nat -> str := fun c => D c ++ (if Z.of_nat c =? pcol p then ink (pdata p) else []).

  (** written at once *)
  Lemma inv_write x D st y c t x' : inv x D st -> (c < 8)%nat -> ink y = t -> pend st c = [] ->
    inv (x ++ y) (fun d => D d ++ (if (d =? c)%nat then t else [])) {| px := x'; plast := plast st; pinter := pinter st; pout := pout st ++ y |}.
  Proof.
    intros [H1 H2 H3 H4 (ts & T1 & T2 & T3)] Hc Ht Hp. constructor; try assumption. exists (upd ts c t). split; [rewrite upd_length; lia|]. split; [rewrite ink_app, Ht; apply upd_interleaved; [lia|exact T2]|].
    intros d Hd. rewrite upd_nth by lia. change (pend {| px := x'; plast := plast st; pinter := pinter st; pout := pout st ++ y |} d) with (pend st d). rewrite <- (T3 d Hd). destruct (Nat.eqb_spec d c) as [->|N]; [rewrite Hp, !app_nil_r; reflexivity|rewrite app_nil_r; reflexivity].
  Qed.
  Lemma inv_blank x D st y x' : inv x D st -> ink y = [] -> inv (x ++ y) D {| px := x'; plast := plast st; pinter := pinter st; pout := pout st ++ y |}.
  Proof. intros [H1 H2 H3 H4 (ts & T1 & T2 & T3)] Hy. constructor; try assumption. exists ts. split; [exact T1|]. split; [rewrite ink_app, Hy, app_nil_r; exact T2|exact T3]. Qed.
  (** given to a wrapper *)
  Lemma inv_inter_process x D st y t w' x' : inv x D st -> (tb = true -> 0 < llast l -> False) -> ring w' -> wwidth w' = wwidth (pinter st) -> ink y ++ waiting w' = waiting (pinter st) ++ t ->
    inv (x ++ y) (fun d => D d ++ (if (d =? 0)%nat then t else [])) {| px := x'; plast := plast st; pinter := w'; pout := pout st ++ y |}.
  Proof.
    intros [H1 H2 H3 H4 (ts & T1 & T2 & T3)] Hc R W E. constructor; [exact H1|split; [exact R|cbn [pinter]; rewrite W; apply H2]|intros A B; destruct (Hc A B)|exact H4|].
    exists (upd ts 0 (ink y)). split; [rewrite upd_length; lia|]. split; [rewrite ink_app; apply upd_interleaved; [lia|exact T2]|]. intros d Hd. rewrite upd_nth by lia. specialize (T3 d Hd). unfold pend in *. cbn [pinter plast]. destruct d as [|d]; cbn [Nat.eqb] in *; [|rewrite app_nil_r; exact T3].
    rewrite <- T3, <- !app_assoc, E. reflexivity.
  Qed.
  Lemma inv_last_process x D st y t w' x' : inv x D st -> 0 < llast l -> ring w' -> wwidth w' = wwidth (plast st) -> ink y ++ waiting w' = waiting (plast st) ++ t ->
    inv (x ++ y) (fun d => D d ++ (if (Z.of_nat d =? llast l) then t else [])) {| px := x'; plast := w'; pinter := pinter st; pout := pout st ++ y |}.
  Proof.
    intros [H1 H2 H3 H4 (ts & T1 & T2 & T3)] Hc R W E. constructor; [split; [exact R|cbn [plast]; rewrite W; apply H1]|exact H2|exact H3|intro; lia|].
    exists (upd ts (Z.to_nat (llast l)) (ink y)). split; [rewrite upd_length; lia|]. split; [rewrite ink_app; apply upd_interleaved; [lia|exact T2]|]. intros d Hd. rewrite upd_nth by lia. specialize (T3 d Hd). unfold pend in *. cbn [pinter plast]. destruct (Z.eqb_spec (Z.of_nat d) (llast l)) as [Q|Q].
    - assert (Q2 : d = Z.to_nat (llast l)) by lia. subst d. rewrite Nat.eqb_refl. destruct (Nat.eqb_spec (Z.to_nat (llast l)) 0); [lia|]. rewrite <- T3, <- !app_assoc, E. reflexivity.
    - destruct (Nat.eqb_spec d (Z.to_nat (llast l))); [lia|]. rewrite app_nil_r. exact T3.
  Qed.

  Lemma inv_ext x D D' st : inv x D st -> (forall c, (c < 8)%nat -> D c = D' c) -> inv x D' st.
  Proof. intros [H1 H2 H3 H4 (ts & T1 & T2 & T3)] E. constructor; try assumption. exists ts. split; [exact T1|]. split; [exact T2|]. intros c Hc. rewrite (T3 c Hc). exact (E c Hc). Qed.

  Definition part_fine (p : part) : Prop := 0 <= pcol p /\ (pcol p < 8 -> pcol p <= llast l) /\ in_table p = tb.
  (** the column that [print_parts] leaves to [print_own] *)
  Definition left_out (c : nat) : bool := lown l && (Z.of_nat c =? llast l).

  Lemma print_part_inv x D st p : part_fine p -> inv x D st -> exists y st', print_part l st p = Ret st' /\ pout st' = pout st ++ y /\ inv (x ++ y) (fun c => if left_out c then D c else add D p c) st'.
  Proof.
    intros (P0 & P1 & P2) I. unfold print_part.
    destruct (llast l <? pcol p) eqn:E.
    { exists [], st. split; [reflexivity|]. split; [rewrite app_nil_r; reflexivity|]. rewrite app_nil_r. apply (inv_ext x D); [exact I|]. intros c Hc. unfold add. destruct (left_out c); [reflexivity|]. destruct (Z.eqb_spec (Z.of_nat c) (pcol p)); [lia|]. rewrite app_nil_r. reflexivity. }
    set (nl := if (pcol p =? 0) && (0 <=? px st) then newline else []). set (r := indent (if pcol p =? 0 then 0 else px st) (tabstop (lwidths l) (pcol p))).
    assert (Iy : ink (nl ++ snd r) = []) by (rewrite ink_app; unfold r; rewrite ink_indent; unfold nl; destruct (_ && _)%bool; reflexivity). clearbody nl r.
    set (c := Z.to_nat (pcol p)). assert (Ec : Z.of_nat c = pcol p) by (unfold c; lia).
    destruct ((pcol p <? llast l) && in_table p) eqn:Dr.
    - exists ((nl ++ snd r) ++ pdata p). eexists. split; [reflexivity|]. split; [cbn [pout]; rewrite <- !app_assoc; reflexivity|].
      eapply inv_ext; [replace (pout st ++ nl ++ snd r) with (pout st ++ (nl ++ snd r)) by reflexivity; rewrite <- (app_assoc (pout st)); apply (inv_write x D st ((nl ++ snd r) ++ pdata p) c (ink (pdata p))); [exact I|lia|rewrite ink_app, Iy; reflexivity|]|].
      + unfold pend. destruct (Nat.eqb_spec c 0) as [C0|C0]; [apply (inv_direct x D st I); [lia|lia]|]. destruct (Z.eqb_spec (Z.of_nat c) (llast l)); [lia|reflexivity].
      + intros d Hd. unfold add, left_out. cbn beta. rewrite <- Ec. destruct (Nat.eqb_spec d c) as [->|N].
        * rewrite Z.eqb_refl. destruct (Z.eqb_spec (Z.of_nat c) (llast l)); [lia|]. rewrite andb_false_r. reflexivity.
        * destruct (Z.eqb_spec (Z.of_nat d) (Z.of_nat c)); [lia|]. rewrite app_nil_r. destruct (lown l && (Z.of_nat d =? llast l))%bool; reflexivity.
    - assert (Dr2 : pcol p = llast l \/ pcol p = 0 /\ tb = false).
      { destruct (Z.eqb_spec (pcol p) (llast l)) as [Q|Q]; [left; exact Q|right]. assert (T : in_table p = false) by (destruct (in_table p); [lia|reflexivity]). split; [|congruence]. unfold in_table in T. destruct (0 <? pcol p) eqn:Z0; [discriminate|lia]. }
      destruct (negb (lown l) || negb (pcol p =? llast l)) eqn:Ow.
      + destruct (pcol p =? 0) eqn:C0.
        * destruct (process_ink (pinter st) (pdata p)) as (w' & y & E1 & R1 & X1 & W1 & I1); [apply (inv_inter x D st I)|apply (inv_inter x D st I)|]. rewrite E1. cbn [obind fst snd].
          exists ((nl ++ snd r) ++ y). eexists. split; [reflexivity|]. split; [cbn [pout]; rewrite <- !app_assoc; reflexivity|].
          eapply inv_ext; [replace ((pout st ++ nl ++ snd r) ++ y) with (pout st ++ (nl ++ snd r) ++ y) by (rewrite <- !app_assoc; reflexivity); apply (inv_inter_process x D st ((nl ++ snd r) ++ y) (ink (pdata p))); [exact I|lia|exact R1|exact W1|rewrite ink_app, Iy; exact I1]|].
          intros d Hd. unfold add, left_out. cbn beta. destruct (Nat.eqb_spec d 0) as [->|N].
          -- assert (Q : (Z.of_nat 0 =? pcol p) = true) by lia. rewrite Q. destruct (lown l && (Z.of_nat 0 =? llast l))%bool eqn:Lo; [|reflexivity]. exfalso. rewrite Hown in Lo by lia. discriminate.
          -- assert (Q : (Z.of_nat d =? pcol p) = false) by lia. rewrite Q, app_nil_r. destruct (lown l && (Z.of_nat d =? llast l))%bool; reflexivity.
        * destruct (process_ink (plast st) (pdata p)) as (w' & y & E1 & R1 & X1 & W1 & I1); [apply (inv_last x D st I)|apply (inv_last x D st I)|]. rewrite E1. cbn [obind fst snd].
          exists ((nl ++ snd r) ++ y). eexists. split; [reflexivity|]. split; [cbn [pout]; rewrite <- !app_assoc; reflexivity|].
          eapply inv_ext; [replace ((pout st ++ nl ++ snd r) ++ y) with (pout st ++ (nl ++ snd r) ++ y) by (rewrite <- !app_assoc; reflexivity); apply (inv_last_process x D st ((nl ++ snd r) ++ y) (ink (pdata p))); [exact I|lia|exact R1|exact W1|rewrite ink_app, Iy; exact I1]|].
          intros d Hd. unfold add, left_out. cbn beta. assert (Ql : pcol p = llast l) by lia. rewrite Ql. destruct (Z.eqb_spec (Z.of_nat d) (llast l)) as [Q|Q].
          -- assert (Lo : lown l = false) by (rewrite Ql, Z.eqb_refl in Ow; destruct (lown l); [discriminate|reflexivity]). rewrite Lo. reflexivity.
          -- rewrite andb_false_r. reflexivity.
      + exists (nl ++ snd r). eexists. split; [reflexivity|]. split; [reflexivity|]. apply (inv_ext _ D); [apply inv_blank; [exact I|exact Iy]|]. intros d Hd. unfold add, left_out. assert (lown l = true) by (destruct (lown l); [reflexivity|discriminate]). rewrite H. cbn [andb].
        assert (Ql : pcol p = llast l) by lia. rewrite Ql. destruct (Z.of_nat d =? llast l); [reflexivity|]. rewrite app_nil_r. reflexivity.
  Qed.

  Definition col_text (ps : list part) (c : nat) : str := flat_map (fun p => if Z.of_nat c =? pcol p then ink (pdata p) else []) ps.

  Lemma print_parts_inv ps : forall x D st, (forall p, In p ps -> part_fine p) -> inv x D st ->
    exists y st', print_parts l st ps = Ret st' /\ pout st' = pout st ++ y /\ inv (x ++ y) (fun c => if left_out c then D c else D c ++ col_text ps c) st'.
  Proof.
    induction ps as [|p ps IH]; intros x D st F I.
    - exists [], st. split; [reflexivity|]. rewrite !app_nil_r. split; [reflexivity|]. apply (inv_ext x D); [exact I|]. intros c _. cbn. rewrite app_nil_r. destruct (left_out c); reflexivity.
    - cbn [print_parts]. destruct (print_part_inv x D st p (F p (or_introl eq_refl)) I) as (y & st1 & E & O & I1). rewrite E. cbn [obind].
      destruct (IH _ _ st1 (fun q K => F q (or_intror K)) I1) as (z & st2 & E2 & O2 & I2). exists (y ++ z), st2. split; [exact E2|]. split; [rewrite O2, O, <- app_assoc; reflexivity|]. rewrite app_assoc. apply (inv_ext _ _ _ _ I2). intros c _. cbn beta. destruct (left_out c); [reflexivity|]. unfold add. cbn [col_text flat_map]. rewrite <- app_assoc. reflexivity.
  Qed.

  Lemma print_own_inv ps : forall x D st, 0 < llast l -> inv x D st ->
    exists y st', print_own l st ps = Ret st' /\ pout st' = pout st ++ y /\ inv (x ++ y) (fun c => D c ++ (if Z.of_nat c =? llast l then col_text ps c else [])) st'.
  Proof.
    induction ps as [|p ps IH]; intros x D st L I.
    - exists [], st. split; [reflexivity|]. rewrite !app_nil_r. split; [reflexivity|]. apply (inv_ext x D); [exact I|]. intros c _. cbn. destruct (_ =? _); rewrite app_nil_r; reflexivity.
    - cbn [print_own]. destruct (pcol p =? llast l) eqn:E.
      + destruct (process_ink (plast st) (pdata p)) as (w' & y & E1 & R1 & X1 & W1 & I1); [apply (inv_last x D st I)|apply (inv_last x D st I)|]. rewrite E1. cbn [obind fst snd].
        set (y1 := newline ++ snd (indent 0 (lwidth l - lright l)) ++ y).
        assert (I2 : inv (x ++ y1) (fun d => D d ++ (if (Z.of_nat d =? llast l) then ink (pdata p) else [])) {| px := px st; plast := w'; pinter := pinter st; pout := pout st ++ y1 |}).
        { apply inv_last_process; [exact I|exact L|exact R1|exact W1|]. unfold y1. rewrite !ink_app, ink_indent. exact I1. }
        destruct (IH _ _ _ L I2) as (z & st2 & E2 & O2 & I3). exists (y1 ++ z), st2. split; [exact E2|]. split; [rewrite O2; cbn [pout]; rewrite <- app_assoc; reflexivity|]. rewrite app_assoc. apply (inv_ext _ _ _ _ I3). intros c _. cbn beta. cbn [col_text flat_map]. rewrite <- app_assoc. f_equal. destruct (Z.eqb_spec (Z.of_nat c) (llast l)) as [Q|Q]; [|reflexivity]. replace (Z.of_nat c =? pcol p) with true by lia. reflexivity.
      + destruct (IH x D st L I) as (z & st2 & E2 & O2 & I3). exists z, st2. split; [exact E2|]. split; [exact O2|]. apply (inv_ext _ _ _ _ I3). intros c _. f_equal. destruct (Z.eqb_spec (Z.of_nat c) (llast l)) as [Q|Q]; [|reflexivity]. cbn [col_text flat_map]. replace (Z.of_nat c =? pcol p) with false by lia. reflexivity.
  Qed.

  Lemma print_row_inv ps st : (forall p, In p ps -> part_fine p) -> ring (plast st) -> 2 <= wwidth (plast st) -> queue (plast st) = [] -> ring (pinter st) -> 2 <= wwidth (pinter st) -> queue (pinter st) = [] ->
    exists x st', print_row l st ps = Ret st' /\ pout st' = pout st ++ x /\ (interleaved (map (col_text ps) (seq 0 8)) (ink x) /\ exists y, x = y ++ newline) /\
      ring (plast st') /\ 2 <= wwidth (plast st') /\ queue (plast st') = [] /\ ring (pinter st') /\ 2 <= wwidth (pinter st') /\ queue (pinter st') = [].
  Proof.
    intros F R1 W1 Q1 R2 W2 Q2. unfold print_row. set (st0 := {| px := -1; plast := plast st; pinter := pinter st; pout := pout st |}).
    assert (Wa : waiting (plast st) = []) by (unfold waiting; rewrite Q1; reflexivity). assert (Wb : waiting (pinter st) = []) by (unfold waiting; rewrite Q2; reflexivity).
    assert (I0 : inv [] (fun _ => []) st0).
    { constructor; [split; assumption|split; assumption|intros _ _; exact Wb|intros _; exact Wa|]. exists (repeat [] 8). split; [reflexivity|]. split; [apply interleaved_nil; intros t K; apply repeat_spec in K; exact K|]. intros c Hc. rewrite nth_repeat. unfold pend. cbn [plast pinter st0]. rewrite Wa, Wb. destruct (c =? 0)%nat; [reflexivity|]. destruct (_ =? _); reflexivity. }
    destruct (print_parts_inv ps [] (fun _ => []) st0 F I0) as (y & st1 & E1 & O1 & I1). rewrite E1. cbn [obind]. cbn [app] in I1.
    assert (Own : exists z st2, (if lown l then print_own l st1 ps else Ret st1) = Ret st2 /\ pout st2 = pout st1 ++ z /\ inv (y ++ z) (col_text ps) st2).
    { assert (Cases : lown l = true \/ lown l = false) by (destruct (lown l); auto). destruct Cases as [Lo|Lo]; rewrite Lo.
      - assert (L0 : 0 < llast l) by (destruct (Z.eq_dec (llast l) 0) as [Z0|]; [pose proof (Hown Z0); congruence|lia]). destruct (print_own_inv ps y _ st1 L0 I1) as (z & st2 & E2 & O2 & I2). exists z, st2. split; [exact E2|]. split; [exact O2|]. apply (inv_ext _ _ _ _ I2). intros c _. cbn beta. unfold left_out. rewrite Lo. cbn [andb]. destruct (Z.of_nat c =? llast l); [reflexivity|]. rewrite app_nil_r. reflexivity.
      - exists [], st1. split; [reflexivity|]. rewrite !app_nil_r. split; [reflexivity|]. apply (inv_ext _ _ _ _ I1). intros c _. unfold left_out. rewrite Lo. reflexivity. }
    destruct Own as (z & st2 & E2 & O2 & I2). rewrite E2. cbn [obind]. destruct I2 as [(Ra & Wwa) (Rb & Wwb) Hd Hu (ts & T1 & T2 & T3)].
    destruct (flush_ink (plast st2) Ra) as (Fa1 & Fa2 & Fa3 & Fa4 & Fa5). destruct (flush_ink (pinter st2) Rb) as (Fb1 & Fb2 & Fb3 & Fb4 & Fb5). cbn [px plast pinter pout].
    exists (y ++ z ++ newline ++ snd (flush (plast st2)) ++ snd (flush (pinter st2))). eexists. split; [reflexivity|]. cbn [px plast pinter pout]. split; [rewrite O2, O1; cbn [pout st0]; rewrite <- !app_assoc; reflexivity|].
    split; [split|split; [exact Fa1|]; split; [rewrite Fa3; exact Wwa|]; split; [exact Fa4|]; split; [exact Fb1|]; split; [rewrite Fb3; exact Wwb|exact Fb4]].
    2:{ assert (Fl : forall w, snd (flush w) = [] \/ exists v, snd (flush w) = v ++ newline) by (intro w; unfold flush; destruct (buf_empty w); [left; reflexivity|right; cbn [snd]; eexists; rewrite app_assoc; reflexivity]).
      destruct (Fl (pinter st2)) as [->|(v & ->)]; [|eexists; rewrite !app_assoc; reflexivity]. destruct (Fl (plast st2)) as [->|(v & ->)]; rewrite ?app_nil_r; eexists; rewrite !app_assoc; reflexivity. }
    rewrite !ink_app, Fa5, Fb5. change (ink newline) with (@nil ascii). cbn [app]. rewrite ink_app in T2.
    set (k := if llast l =? 0 then 1%nat else Z.to_nat (llast l)).
    assert (K8 : (k < 8)%nat) by (unfold k; destruct (llast l =? 0); lia).
    replace (map (col_text ps) (seq 0 8)) with (upd (upd ts k (waiting (plast st2))) 0 (waiting (pinter st2))).
    - rewrite !app_assoc. apply upd_interleaved; [rewrite upd_length; lia|]. apply upd_interleaved; [lia|exact T2].
    - apply (nth_ext _ _ [] []); [rewrite !upd_length by (rewrite ?upd_length; lia); rewrite map_length, seq_length; exact T1|]. intros n Hn. rewrite !upd_length in Hn by (rewrite ?upd_length; lia).
      assert (Ecol : nth n (map (col_text ps) (seq 0 8)) [] = col_text ps n) by (rewrite (nth_indep (map (col_text ps) (seq 0 8)) [] (col_text ps 0%nat)) by (rewrite map_length, seq_length; lia); rewrite map_nth, seq_nth by lia; reflexivity). etransitivity; [|symmetry; exact Ecol]. rewrite <- (T3 n) by lia. rewrite !upd_nth by (rewrite ?upd_length; lia). unfold pend.
      destruct (Nat.eqb_spec n 0) as [->|N].
      + unfold k. destruct (Nat.eqb_spec 0 (if llast l =? 0 then 1%nat else Z.to_nat (llast l))) as [Q|Q]; [destruct (Z.eqb_spec (llast l) 0); lia|reflexivity].
      + destruct (Nat.eqb_spec n k) as [Q|Q].
        * subst n. destruct (Z.eqb_spec (Z.of_nat k) (llast l)) as [Q2'|Q2']; [reflexivity|]. rewrite Hu; [reflexivity|]. unfold k in *. destruct (Z.eqb_spec (llast l) 0); [assumption|lia].
        * unfold k in *. destruct (Z.eqb_spec (Z.of_nat n) (llast l)) as [Q2'|Q2']; [destruct (Z.eqb_spec (llast l) 0); lia|rewrite app_nil_r; reflexivity].
  Qed.
End Row.

(** ** Rows and tables *)
Definition row_ok (r : row) : Prop := r <> [] /\ forall cell, In cell r -> cell <> [].
Lemma row_of_ok t : row_ok (row_of t).
Proof.
  unfold row_of. split; [pose proof (split_nonempty TAB t); destruct (split_on TAB t); [contradiction|discriminate]|]. intros cell I. apply in_map_iff in I. destruct I as (x & <- & _). apply split_nonempty.
Qed.
Lemma height_pos r cell : In cell r -> (length cell <= height r)%nat.
Proof. unfold height. induction r as [|x r IH]; [intros []|]. cbn [map fold_right]. intros [->|I]; [lia|]. specialize (IH I). lia. Qed.
Definition ender (e : ascii) : Prop := e = NUL \/ e = NL.

Lemma in_table_row e r j c : ender e -> row_ok r -> (c < length r)%nat -> (j < height r)%nat -> in_table (part_at e r j c) = negb (interjection r).
Proof.
  intros He (N & Hr) Hc Hj. unfold in_table, part_at. cbn [pcol pline pafter]. destruct r as [|cell r]; [contradiction|]. destruct c as [|c].
  - assert (Nc : cell <> []) by (apply Hr; left; reflexivity). unfold after. cbn [nth length]. destruct cell as [|l [|l2 cell]]; [contradiction| |].
    + cbn [length]. replace (S j <? 1)%nat with false by lia. destruct r as [|c2 r].
      * cbn in Hj. assert (j = 0)%nat by lia. subst j. cbn. destruct He as [-> | ->]; reflexivity.
      * cbn. rewrite orb_true_r. reflexivity.
    + cbn [length interjection negb]. destruct j as [|j]; [cbn; destruct r; reflexivity|]. cbn. reflexivity.
  - replace (0 <? Z.of_nat (S c)) with true by lia. cbn [orb]. destruct r as [|c2 r]; [cbn in Hc; lia|]. destruct cell as [|l [|l2 cell]]; reflexivity.
Qed.
Lemma parts_in e r p : In p (parts_of e r) -> exists j c, (j < height r)%nat /\ (c < length r)%nat /\ p = part_at e r j c.
Proof. unfold parts_of. intro I. apply in_flat_map in I. destruct I as (j & Ij & I). apply in_map_iff in I. destruct I as (c & <- & Ic). apply in_seq in Ij, Ic. exists j, c. split; [lia|]. split; [lia|reflexivity]. Qed.

Lemma col_text_app a b c : col_text (a ++ b) c = col_text a c ++ col_text b c. Proof. unfold col_text. apply flat_map_app. Qed.
Lemma col_text_line e r j c n k : col_text (map (part_at e r j) (seq k n)) c = if ((k <=? c) && (c <? k + n))%nat then ink (nth j (nth c r []) []) else [].
Proof.
  revert k. induction n as [|n IH]; intro k; [replace ((k <=? c) && (c <? k + 0))%nat with false by lia; reflexivity|]. cbn [seq map]. unfold col_text. cbn [flat_map]. fold (col_text (map (part_at e r j) (seq (S k) n)) c). rewrite IH. cbn [pcol pdata part_at].
  destruct (Z.eqb_spec (Z.of_nat c) (Z.of_nat k)) as [Q|Q].
  - assert (c = k) by lia. subst k. replace ((S c <=? c) && (c <? S c + n))%nat with false by lia. replace ((c <=? c) && (c <? c + S n))%nat with true by lia. apply app_nil_r.
  - replace ((k <=? c) && (c <? k + S n))%nat with ((S k <=? c) && (c <? S k + n))%nat by lia. reflexivity.
Qed.
Lemma concat_nth (cell : list str) : forall n, (length cell <= n)%nat -> flat_map (fun j => ink (nth j cell [])) (seq 0 n) = ink (concat cell).
Proof.
  induction cell as [|x cell IH]; intros n L.
  - cbn [concat]. change (ink []) with (@nil ascii). generalize 0%nat. induction n as [|n IHn]; intro k; [reflexivity|]. cbn [seq flat_map]. rewrite IHn by (cbn; lia). destruct k; reflexivity.
  - cbn [length] in L. destruct n as [|n]; [lia|]. cbn [seq flat_map nth concat]. rewrite ink_app. f_equal. rewrite <- seq_shift. rewrite flat_map_concat_map, map_map, <- flat_map_concat_map. apply IH. lia.
Qed.
Lemma col_text_row e r c : col_text (parts_of e r) c = column_ink r c.
Proof.
  unfold parts_of, column_ink. transitivity (flat_map (fun j => if (c <? length r)%nat then ink (nth j (nth c r []) []) else []) (seq 0 (height r))).
  - induction (seq 0 (height r)) as [|j js IH]; [reflexivity|]. cbn [flat_map]. rewrite col_text_app, IH, col_text_line. reflexivity.
  - destruct (Nat.ltb_spec c (length r)) as [L|L].
    + apply concat_nth. apply height_pos. apply nth_In. exact L.
    + rewrite (nth_overflow r []) by lia. cbn. induction (seq 0 (height r)) as [|j js IH]; [reflexivity|exact IH].
Qed.

Definition parts_for (ps : list part) (r : row) : Prop := row_ok r /\ exists e, ender e /\ ps = parts_of e r.

Lemma print_rows_inv l pss rows : 0 <= llast l <= 7 -> (llast l = 0 -> lown l = false) -> Forall2 parts_for pss rows -> (forall p, In p (concat pss) -> pcol p < 8 -> pcol p <= llast l) ->
  forall st, ring (plast st) -> 2 <= wwidth (plast st) -> queue (plast st) = [] -> ring (pinter st) -> 2 <= wwidth (pinter st) -> queue (pinter st) = [] ->
  exists xs st', print_rows l st pss = Ret st' /\ pout st' = pout st ++ concat xs /\ Forall2 prints rows xs.
Proof.
  intros Hl Ho F. induction F as [|ps r pss rows (Hr & e & He & ->) F IH]; intros P st R1 W1 Q1 R2 W2 Q2.
  - exists [], st. split; [reflexivity|]. split; [rewrite app_nil_r; reflexivity|constructor].
  - cbn [print_rows concat] in *. destruct (print_row_inv l (negb (interjection r)) Hl Ho (parts_of e r) st) as (x & st1 & E1 & O1 & (I1 & L1) & K1 & K2 & K3 & K4 & K5 & K6).
    { intros p I. destruct (parts_in e r p I) as (j & c & Hj & Hc & Ep). split; [rewrite Ep; cbn; lia|]. split; [apply P; apply in_or_app; left; exact I|]. rewrite Ep. apply in_table_row; assumption. }
    1-6: assumption.
    rewrite E1. cbn [obind]. destruct (IH (fun p I => P p (in_or_app _ _ _ (or_intror I))) st1 K1 K2 K3 K4 K5 K6) as (xs & st2 & E2 & O2 & G). exists (x :: xs), st2. split; [exact E2|]. split; [rewrite O2, O1; cbn [concat]; rewrite <- app_assoc; reflexivity|]. constructor; [|exact G]. split; [|exact L1].
    replace (columns_ink r) with (map (col_text (parts_of e r)) (seq 0 8)); [exact I1|]. unfold columns_ink. apply map_ext. intro c. apply col_text_row.
Qed.

Lemma wrapper_width a b : 2 <= wwidth (wrapper_new a b). Proof. cbn. destruct (b - a <? 2) eqn:E; lia. Qed.

Lemma print_table_inv width mw ow pss rows : 1 <= width -> Forall2 parts_for pss rows -> exists xs, print_table width mw ow pss = Ret (concat xs) /\ Forall2 prints rows xs.
Proof.
  intros W F. unfold print_table. 
  assert (P : forall p, In p (concat pss) -> 0 <= pcol p).
  { intros p I. apply in_concat in I. destruct I as (ps & I1 & I2). clear -F I1 I2. induction F as [|ps' r pss rows (Hr & e & He & E) F IH]; [destruct I1|]. destruct I1 as [->|I1]; [|exact (IH I1)]. subst ps. destruct (parts_in e r p I2) as (j & c & _ & _ & ->). cbn. lia. }
  destruct (column_widths_ret width pss W P) as (t & E & _ & _). rewrite E. cbn [obind]. destruct (measure_ok t pss P) as (H1 & H2 & H3 & _ & _). set (l := layout_of width mw ow (measure t pss)).
  destruct (print_rows_inv l pss rows) with (st := {| px := -1; plast := wrapper_new (lwidth l - lright l) (lwidth l); pinter := wrapper_new 0 (lwidth l); pout := [] |}) as (xs & st' & E' & O & G); try assumption; try apply new_ring; try apply new_queue; try apply wrapper_width.
  { intro Z0. unfold l, layout_of in *. cbn [llast lown] in *. rewrite Z0. reflexivity. }
  rewrite E'. cbn [obind]. exists xs. split; [rewrite O; reflexivity|exact G].
Qed.

(** ** The whole text *)
Lemma help_parts_rows rs : Forall row_ok rs -> Forall2 parts_for (help_parts rs) rs.
Proof.
  induction rs as [|r rs IH]; intro H; [constructor|]. inversion H as [|? ? Hr Hs]; subst. destruct rs as [|r2 rs].
  - cbn [help_parts]. constructor; [|constructor]. split; [exact Hr|]. exists NUL. split; [left; reflexivity|reflexivity].
  - change (help_parts (r :: r2 :: rs)) with (parts_of NL r :: help_parts (r2 :: rs)). constructor; [|exact (IH Hs)]. split; [exact Hr|]. exists NL. split; [right; reflexivity|reflexivity].
Qed.
Lemma hparts_rows h : Forall2 parts_for (hparts h) (rows_of h).
Proof. apply help_parts_rows. apply Forall_forall. intros r I. unfold rows_of in I. apply in_map_iff in I. destruct I as (t & <- & _). apply row_of_ok. Qed.
Lemma helps_rows hs : Forall2 parts_for (flat_map hparts hs) (flat_map rows_of hs).
Proof. induction hs as [|h hs IH]; [constructor|]. cbn [flat_map]. apply Forall2_app; [apply hparts_rows|exact IH]. Qed.

Lemma tables_drop_none u : tables (drop_none u) = tables u.
Proof. induction u as [|e u IH]; [reflexivity|]. cbn [drop_none]. destruct (help e) eqn:E; [reflexivity|]. rewrite IH. cbn [tables]. rewrite E. reflexivity. Qed.
Lemma tables_take e u h : help e = Some h -> tables (e :: u) = flat_map rows_of (take_some (e :: u)) :: tables (drop_some u).
Proof.
  revert e h. induction u as [|e2 u IH]; intros e h H; cbn [take_some]; rewrite H; [cbn; rewrite H, app_nil_r; reflexivity|]. cbn [tables]. rewrite H. destruct (help e2) as [h2|] eqn:E2.
  - specialize (IH e2 h2 E2). cbn [tables] in IH. rewrite E2 in IH. rewrite IH. cbn [take_some flat_map drop_some]. rewrite E2. reflexivity.
  - cbn [flat_map take_some drop_some tables]. rewrite E2. cbn [flat_map]. rewrite app_nil_r. cbn [tables]. rewrite E2. reflexivity.
Qed.
Lemma tparts_tables n : forall u, (length u <= n)%nat -> Forall2 (Forall2 parts_for) (tparts n u) (tables u).
Proof.
  induction n as [|n IH]; intros u L; [destruct u; [constructor|cbn in L; lia]|]. cbn [tparts]. rewrite <- tables_drop_none. pose proof (drop_none_length u) as Ld. destruct (drop_none u) as [|e u'] eqn:D; [constructor|].
  assert (He : exists h, help e = Some h).
  { clear -D. induction u as [|x u IH]; [discriminate|]. cbn [drop_none] in D. destruct (help x) as [h|] eqn:E; [injection D as -> _; eauto|exact (IH D)]. }
  destruct He as (h & He). rewrite (tables_take e u' h He). constructor; [apply helps_rows|]. apply IH. pose proof (drop_some_length u'). cbn [length] in Ld. lia.
Qed.

Lemma print_all_inv width mw ow ts rows : 1 <= width -> Forall2 (Forall2 parts_for) ts rows -> exists xss, print_all width mw ow ts = Ret (concat (concat xss)) /\ Forall2 (Forall2 prints) rows xss.
Proof.
  intros W F. induction F as [|t r ts rows H F (xss & E & G)]; [exists []; split; [reflexivity|constructor]|]. cbn [print_all]. destruct (print_table_inv width mw ow t r W H) as (xs & E1 & G1). rewrite E1. cbn [obind]. rewrite E. cbn [obind]. exists (xs :: xss). split; [cbn [concat]; rewrite concat_app; reflexivity|constructor; assumption].
Qed.

Lemma used_bounds width : 1 <= used width <= 10000. Proof. unfold used. destruct (width <? 1) eqn:E; lia. Qed.
Lemma used_eq width : (let width := if width <? 1 then 80 else width in if 10000 <? width then 10000 else width) = used width.
Proof. unfold used. cbn zeta. destruct (width <? 1) eqn:E; [reflexivity|]. destruct (10000 <? width) eqn:E2; lia. Qed.

Lemma print_usage_eq u more width mp op a b : proper u -> percent_of (used width) mp = Ret a -> percent_of (used width) op = Ret b ->
  print_usage (u ++ the_end :: more) width mp op = print_all (used width) a (if b =? 0 then 1 else b) (tparts (length u) u).
Proof.
  intros P A B. unfold print_usage. pose proof (used_eq width) as U. cbn zeta in U. rewrite U, A. cbn [obind]. rewrite B. cbn [obind]. apply (print_tables_eq _ _ _ more (length u) u); [exact P|lia|rewrite app_length; cbn; lia|]. left. split; reflexivity.
Qed.
