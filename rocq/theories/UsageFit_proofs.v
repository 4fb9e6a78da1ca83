(** Proofs for C124 and C125: tables whose columns fit. *)
From Verif Require Import Usage_model Usage_spec UsageIter_proofs UsageWrap_proofs UsageWidth_proofs UsagePrint_proofs.
From Coq Require Import Lia ZifyBool ZifyNat ZifyN.
Local Open Scope Z_scope.

(** ** The columns of a table *)
Lemma lines_max ls n : n <= fold_right (fun l n => Z.max n (columns l)) n ls /\ (forall l, In l ls -> columns l <= fold_right (fun l n => Z.max n (columns l)) n ls) /\ (fold_right (fun l n => Z.max n (columns l)) n ls = n \/ exists l, In l ls /\ columns l = fold_right (fun l n => Z.max n (columns l)) n ls).
Proof.
  induction ls as [|x ls (A & B & C)]; cbn [fold_right]; [split; [lia|]; split; [intros l []|left; reflexivity]|]. set (v := fold_right _ n ls) in *. split; [lia|]. split; [intros l [<-|I]; [lia|specialize (B l I); lia]|].
  destruct (Z.max_spec v (columns x)) as [(_ & E)|(_ & E)]; rewrite E; [right; exists x; split; [left; reflexivity|reflexivity]|]. destruct C as [C|(l & I & C)]; [left; exact C|right; exists l; split; [right; exact I|exact C]].
Qed.
Lemma column_width_max t c : 0 <= column_width t c /\ (forall r l, In r t -> interjection r = false -> In l (nth c r []) -> columns l <= column_width t c) /\ (column_width t c = 0 \/ exists r l, In r t /\ interjection r = false /\ In l (nth c r []) /\ columns l = column_width t c).
Proof.
  induction t as [|r t (A & B & C)]; [split; [cbn; lia|]; split; [intros r l []|left; reflexivity]|]. unfold column_width in *. cbn [fold_right]. set (v := fold_right _ 0 t) in *.
  assert (C' : v = 0 \/ exists r0 l, In r0 (r :: t) /\ interjection r0 = false /\ In l (nth c r0 []) /\ columns l = v) by (destruct C as [C|(r0 & l & I & C)]; [left; exact C|right; exists r0, l; split; [right; exact I|exact C]]).
  destruct (interjection r) eqn:E; [split; [exact A|]; split; [|exact C']; intros r0 l [<-|I] Hi Il; [congruence|exact (B r0 l I Hi Il)]|].
  destruct (lines_max (nth c r []) v) as (A2 & B2 & C2). split; [lia|]. split; [intros r0 l [<-|I] Hi Il; [exact (B2 l Il)|specialize (B r0 l I Hi Il); lia]|].
  destruct C2 as [C2|(l & I & C2)]; [rewrite C2; exact C'|]. right. exists r, l. split; [left; reflexivity|]. split; [exact E|]. split; [exact I|exact C2].
Qed.
Lemma last_column_max t : (last_column t <= 7)%nat /\ (forall r, In r t -> (Nat.min 7 (length r - 1) <= last_column t)%nat) /\ (last_column t = 0%nat \/ exists r, In r t /\ last_column t = Nat.min 7 (length r - 1)).
Proof.
  induction t as [|r t (A & B & C)]; [split; [cbn; lia|]; split; [intros r []|left; reflexivity]|]. change (last_column (r :: t)) with (Nat.max (last_column t) (Nat.min 7 (length r - 1))). set (v := last_column t) in *. split; [lia|]. split; [intros r0 [<-|I]; [lia|specialize (B r0 I); lia]|].
  destruct (Nat.max_spec v (Nat.min 7 (length r - 1))) as [(_ & E)|(_ & E)]; rewrite E; [right; exists r; split; [left; reflexivity|reflexivity]|]. destruct C as [C|(r0 & I & C)]; [left; exact C|right; exists r0; split; [right; exact I|exact C]].
Qed.

Lemma parts_concat pss rows p : Forall2 parts_for pss rows -> In p (concat pss) -> exists r e j c, In r rows /\ row_ok r /\ ender e /\ (j < height r)%nat /\ (c < length r)%nat /\ p = part_at e r j c.
Proof.
  intros F I. induction F as [|ps r pss rows (Hr & e & He & ->) F IH]; [destruct I|]. cbn [concat] in I. apply in_app_or in I. destruct I as [I|I].
  - destruct (parts_in e r p I) as (j & c & Hj & Hc & E). exists r, e, j, c. split; [left; reflexivity|]. repeat (split; [assumption|]). assumption.
  - destruct (IH I) as (r0 & e0 & j & c & I0 & K). exists r0, e0, j, c. split; [right; exact I0|exact K].
Qed.
Lemma concat_parts pss rows r : Forall2 parts_for pss rows -> In r rows -> row_ok r /\ exists e, ender e /\ forall j c, (j < height r)%nat -> (c < length r)%nat -> In (part_at e r j c) (concat pss).
Proof.
  intros F I. induction F as [|ps r0 pss rows (Hr & e & He & ->) F IH]; [destruct I|]. destruct I as [->|I].
  - split; [exact Hr|]. exists e. split; [exact He|]. intros j c Hj Hc. cbn [concat]. apply in_or_app. left. unfold parts_of. apply in_flat_map. exists j. split; [apply in_seq; lia|]. apply in_map. apply in_seq. lia.
  - destruct (IH I) as (Hr0 & e0 & He0 & K). split; [exact Hr0|]. exists e0. split; [exact He0|]. intros j c Hj Hc. cbn [concat]. apply in_or_app. right. exact (K j c Hj Hc).
Qed.
Lemma parts_cols pss rows : Forall2 parts_for pss rows -> forall p, In p (concat pss) -> 0 <= pcol p.
Proof. intros F p I. destruct (parts_concat pss rows p F I) as (r & e & j & c & _ & _ & _ & _ & _ & ->). cbn. lia. Qed.

Lemma measure_last t pss rows : Forall2 parts_for pss rows -> fst (measure t pss) = Z.of_nat (last_column rows).
Proof.
  intro F. destruct (measure_ok t pss (parts_cols pss rows F)) as (H1 & _ & H3 & H4 & _). destruct (last_column_max rows) as (A & B & C). apply Z.le_antisymm.
  - destruct H4 as [H4|(p & I & E)]; [lia|]. destruct (parts_concat pss rows p F I) as (r & e & j & c & Ir & _ & _ & _ & Hc & ->). cbn [pcol part_at] in E. specialize (B r Ir). lia.
  - destruct C as [C|(r & I & C)]; [lia|]. destruct (concat_parts pss rows r F I) as ((N & Hr) & e & He & K).
    assert (L : (0 < length r)%nat) by (destruct r; [contradiction|cbn; lia]). assert (Hh : (0 < height r)%nat).
    { destruct r as [|cell r]; [contradiction|]. pose proof (height_pos (cell :: r) cell (or_introl eq_refl)). assert (cell <> []) by (apply Hr; left; reflexivity). destruct cell; [contradiction|cbn in *; lia]. }
    specialize (H3 _ (K 0%nat (Nat.min 7 (length r - 1)) Hh ltac:(lia))). cbn [pcol part_at] in H3. lia.
Qed.
Lemma measure_col pss rows c : Forall2 parts_for pss rows -> (c < 8)%nat -> column_width rows c < 10000 -> col_at (snd (measure 10000 pss)) (Z.of_nat c) = column_width rows c.
Proof.
  intros F Hc Hw. destruct (measure_ok 10000 pss (parts_cols pss rows F)) as (_ & _ & _ & _ & H5). destruct (H5 (Z.of_nat c) ltac:(lia)) as (A & B & C). destruct (column_width_max rows c) as (A2 & B2 & C2). apply Z.le_antisymm.
  - destruct B as [B|(p & I & Q & E1 & E2)]; [lia|]. destruct (parts_concat pss rows p F I) as (r & e & j & d & Ir & Hr & He & Hj & Hd & ->). rewrite <- E2. cbn [pcol pscreen part_at] in *. assert (d = c) by lia. subst d.
    unfold counted in Q. rewrite in_table_row in Q by assumption. destruct (interjection r) eqn:Ei; [rewrite andb_false_r in Q; discriminate|].
    destruct (Nat.lt_ge_cases j (length (nth c r []))) as [L|L]; [apply (B2 r _ Ir Ei); apply nth_In; exact L|rewrite nth_overflow by exact L; change (columns []) with 0; exact A2].
  - destruct C2 as [C2|(r & l & Ir & Ei & Il & E)]; [lia|]. destruct (concat_parts pss rows r F Ir) as (Hr & e & He & K). rewrite <- E.
    assert (Lc : (c < length r)%nat) by (destruct (Nat.lt_ge_cases c (length r)); [assumption|rewrite nth_overflow in Il by assumption; destruct Il]).
    apply (In_nth _ _ []) in Il. destruct Il as (j & Lj & El0). assert (El : pdata (part_at e r j c) = l) by exact El0. clear El0. cbn [pdata part_at] in El. assert (Hj : (j < height r)%nat) by (eapply Nat.lt_le_trans; [exact Lj|exact (height_pos r (nth c r []) (nth_In r [] Lc))]).
    specialize (C _ (K j c Hj Lc)). cbn [pcol pscreen part_at] in C. rewrite El in C. apply C; [|reflexivity]. unfold counted. rewrite in_table_row by assumption. cbn [pcol pscreen part_at]. rewrite El, Ei. cbn [negb]. lia.
Qed.

Lemma tabstop_0 w : tabstop w 0 = 0. Proof. reflexivity. Qed.
Lemma firstn_S_nth (w : list Z) n : (n < length w)%nat -> firstn (S n) w = firstn n w ++ [nth n w 0].
Proof. revert w. induction n as [|n IH]; intros [|x w] L; cbn [length] in L; try lia; [reflexivity|]. cbn [firstn nth app]. f_equal. apply IH. lia. Qed.
Lemma tabstop_next w c : 0 <= c < 8 -> length w = 8%nat -> tabstop w (c + 1) = tabstop w c + col_at w c.
Proof. intros H L. unfold tabstop, col_at. replace (Z.to_nat (c + 1)) with (S (Z.to_nat c)) by lia. rewrite firstn_S_nth by lia. rewrite fold_left_app. cbn [fold_left]. reflexivity. Qed.
Lemma column_start_next t c : column_start t (S c) = column_start t c + column_width t c.
Proof.
  assert (G : forall ks a, fold_right (fun k n => column_width t k + n) a ks = fold_right (fun k n => column_width t k + n) 0 ks + a) by (induction ks as [|k ks IH]; intro a; cbn [fold_right]; [lia|rewrite IH; lia]).
  unfold column_start. rewrite seq_S. cbn [plus]. rewrite fold_right_app. cbn [fold_right]. rewrite G. lia.
Qed.
Lemma column_start_mono t c d : (c <= d)%nat -> 0 <= column_start t c <= column_start t d.
Proof.
  intro H. assert (Z0 : 0 <= column_start t c) by (clear H; induction c as [|c IH]; [cbn; lia|rewrite column_start_next; pose proof (proj1 (column_width_max t c)); lia]). split; [exact Z0|].
  induction H as [|d H IH]; [lia|]. rewrite column_start_next. pose proof (proj1 (column_width_max t d)). lia.
Qed.

(** when the left columns fit, the widths are the natural ones *)
Lemma fit_widths width pss rows : 1 <= width <= 10000 -> Forall2 parts_for pss rows -> column_start rows (last_column rows) + 2 <= width ->
  column_widths width pss = Ret (measure 10000 pss) /\ (forall c, (c <= last_column rows)%nat -> tabstop (snd (measure 10000 pss)) (Z.of_nat c) = column_start rows c).
Proof.
  intros W F H. destruct (last_column_max rows) as (L7 & _ & _).
  assert (Cw : forall c, (c < last_column rows)%nat -> column_width rows c < 10000).
  { intros c Hc. pose proof (column_start_mono rows (S c) (last_column rows) Hc). rewrite column_start_next in H0. pose proof (column_start_mono rows c c (le_n _)). lia. }
  destruct (measure_ok 10000 pss (parts_cols pss rows F)) as (_ & L8 & _).
  assert (T : forall c, (c <= last_column rows)%nat -> tabstop (snd (measure 10000 pss)) (Z.of_nat c) = column_start rows c).
  { induction c as [|c IH]; intro Hc; [reflexivity|]. replace (Z.of_nat (S c)) with (Z.of_nat c + 1) by lia. rewrite tabstop_next, column_start_next, IH, (measure_col pss rows c) by (lia || assumption || (apply Cw; lia)). reflexivity. }
  split; [|exact T]. unfold column_widths. replace (Z.to_nat 10001) with (S (Z.to_nat 10000)) by lia. cbn [widths_loop]. 
  change (left_width (fst (measure 10000 pss)) (snd (measure 10000 pss))) with (tabstop (snd (measure 10000 pss)) (fst (measure 10000 pss))).
  rewrite (measure_last 10000 pss rows F), T by lia. replace (width <? column_start rows (last_column rows)) with false by lia. reflexivity.
Qed.

(** ** Rows within the width *)
Definition row_plain (r : row) : Prop := forall cell l, In cell r -> In l cell -> no_nl l.

Section Fit.
  Variables (W : Z) (l : layout) (rows : list row).
  Hypothesis Hlast : llast l = Z.of_nat (last_column rows).
  Hypothesis Hown : llast l = 0 -> lown l = false.
  Hypothesis Hstop : forall c, (c <= last_column rows)%nat -> tabstop (lwidths l) (Z.of_nat c) = column_start rows c.
  Hypothesis HW : column_start rows (last_column rows) <= W.
  Hypothesis HW0 : 0 <= W.
  Hypothesis Hwx : lown l = false -> (0 < last_column rows)%nat -> lwidth l - lright l = column_start rows (last_column rows).

  Definition wrappers_ok (st : pstate) : Prop := wide_ok W (plast st) /\ wx (plast st) = lwidth l - lright l /\ wide_ok W (pinter st) /\ wx (pinter st) = 0.
  Definition ready (c : nat) (b : Z) (st : pstate) : Prop :=
    b <= W /\ (c = 0%nat -> px st < 0 -> b <= 0) /\ ((0 < c <= last_column rows)%nat -> b <= px st /\ 0 <= px st <= column_start rows c).

  Lemma part_text_nl r e j c : row_plain r -> (c < length r)%nat -> no_nl (pdata (part_at e r j c)).
  Proof.
    intros P Hc. cbn [pdata part_at]. destruct (Nat.lt_ge_cases j (length (nth c r []))) as [L|L]; [|rewrite nth_overflow by exact L; intros x []]. apply (P (nth c r [])); apply nth_In; assumption.
  Qed.
  Lemma part_cols r e j c : In r rows -> interjection r = false -> pscreen (part_at e r j c) <= column_width rows c.
  Proof.
    intros I E. cbn [pscreen part_at]. destruct (column_width_max rows c) as (A & B & _). destruct (Nat.lt_ge_cases j (length (nth c r []))) as [L|L]; [apply (B r); [exact I|exact E|apply nth_In; exact L]|rewrite nth_overflow by exact L; exact A].
  Qed.

  Lemma print_part_within st b r e j c : In r rows -> row_ok r -> row_plain r -> ender e -> (j < height r)%nat -> (c < length r)%nat -> wrappers_ok st -> ready c b st ->
    exists y st' b', print_part l st (part_at e r j c) = Ret st' /\ pout st' = pout st ++ y /\ wrappers_ok st' /\ within W b y b' /\
      (ready (S c) b' st' \/ length r = 1%nat /\ b' <= W) /\ ((c <= last_column rows)%nat -> 0 <= px st') /\ (0 <= px st -> 0 <= px st').
  Proof.
    intros Ir Ho Hp He Hj Hc (K1 & X1 & K2 & X2) (B1 & B2 & B3). unfold print_part. cbn [pcol part_at]. destruct (llast l <? Z.of_nat c) eqn:E.
    { exists [], st, b. split; [reflexivity|]. split; [rewrite app_nil_r; reflexivity|]. split; [exact (conj K1 (conj X1 (conj K2 X2)))|]. split; [apply within_nil; lia|]. split; [left; split; [exact B1|]; split; [discriminate|lia]|]. split; [lia|auto]. }
    assert (Hcl : (c <= last_column rows)%nat) by lia. rewrite (Hstop c Hcl). pose proof (column_start_mono rows c (last_column rows) Hcl) as M.
    set (nl := if (Z.of_nat c =? 0) && (0 <=? px st) then newline else []). set (x0 := if Z.of_nat c =? 0 then 0 else px st).
    assert (In0 : within W b (nl ++ snd (indent x0 (column_start rows c))) (column_start rows c) /\ fst (indent x0 (column_start rows c)) = column_start rows c).
    { destruct (Z.eqb_spec (Z.of_nat c) 0) as [C0|C0].
      - unfold x0, nl. cbn [andb]. destruct (within_indent W 0 0 (column_start rows c)) as (A & B); [lia|lia|lia|]. split; [|exact B]. destruct (0 <=? px st) eqn:Px.
        + apply (within_app _ _ _ 0); [apply within_newline; lia|exact A].
        + cbn [app]. apply (within_weaken W 0 _ (column_start rows c)); [exact A|apply B2; lia|lia].
      - unfold x0, nl. cbn [andb app]. destruct (B3 ltac:(lia)) as (B4 & B5). apply within_indent; lia. }
    destruct In0 as (In0 & Ex). rewrite Ex. clearbody nl x0. fold (part_at e r j c). rewrite (in_table_row e r j c He Ho Hc Hj).
    destruct ((Z.of_nat c <? llast l) && negb (interjection r))%bool eqn:Dr.
    - assert (Ei : interjection r = false) by (destruct (interjection r); [rewrite andb_false_r in Dr; discriminate|reflexivity]). assert (Hlt : (c < last_column rows)%nat) by lia.
      pose proof (part_cols r e j c Ir Ei) as Pc. cbn [pscreen part_at] in *. pose proof (column_start_mono rows (S c) (last_column rows) Hlt) as M2. rewrite column_start_next in M2. pose proof (columns_nonneg (nth j (nth c r []) [])) as Nn.
      exists ((nl ++ snd (indent x0 (column_start rows c))) ++ nth j (nth c r []) []). eexists. exists (column_start rows c + columns (nth j (nth c r []) [])). split; [reflexivity|]. cbn [pout px plast pinter]. split; [rewrite <- !app_assoc; reflexivity|]. split; [exact (conj K1 (conj X1 (conj K2 X2)))|].
      split; [apply (within_app _ _ _ (column_start rows c)); [exact In0|apply within_text; [exact (part_text_nl r e j c Hp Hc)|lia|lia]]|]. split; [left; split; [lia|]; split; [discriminate|]; intros _; cbn [px]; rewrite column_start_next; lia|]. split; lia.
    - destruct (negb (lown l) || negb (Z.of_nat c =? llast l)) eqn:Ow.
      + destruct (Z.eqb_spec (Z.of_nat c) 0) as [C0|C0].
        * destruct (process_within W (pinter st) (pdata (part_at e r j c)) K2 (part_text_nl r e j c Hp Hc)) as (w' & y & E1 & K' & X' & W' & I'). first [rewrite E1|cbn [pdata part_at] in E1; rewrite E1]. cbn [obind fst snd].
          exists ((nl ++ snd (indent x0 (column_start rows c))) ++ y). eexists. exists W. split; [reflexivity|]. cbn [pout px plast pinter]. split; [rewrite <- !app_assoc; reflexivity|]. split; [split; [exact K1|]; split; [exact X1|]; split; [exact K'|]; cbn [pinter]; congruence|].
          assert (c = 0)%nat by lia. subst c. split; [apply (within_app _ _ _ (column_start rows 0)); [exact In0|]; rewrite X2 in I'; exact I'|]. split; [|cbn; lia].
          destruct (interjection r) eqn:Ei; [right; split; [|lia]; destruct r as [|[|? [|? ?]] [|? ?]]; cbn in Ei; congruence || reflexivity|left]. cbn [negb] in Dr. rewrite andb_true_r in Dr. split; [lia|]. split; [discriminate|lia].
        * assert (Ec : Z.of_nat c = llast l). { destruct (Z.eq_dec (Z.of_nat c) (llast l)) as [|Ne]; [assumption|]. destruct (interjection r) eqn:Ei; [destruct r as [|[|? [|? ?]] [|? ?]]; cbn in Ei, Hc; try discriminate; lia|]. cbn [negb] in Dr. lia. }
          assert (Lo : lown l = false) by (rewrite Ec, Z.eqb_refl in Ow; destruct (lown l); [discriminate|reflexivity]). assert (c = last_column rows) by lia. subst c.
          destruct (process_within W (plast st) (pdata (part_at e r j (last_column rows))) K1 (part_text_nl r e j _ Hp Hc)) as (w' & y & E1 & K' & X' & W' & I'). first [rewrite E1|cbn [pdata part_at] in E1; rewrite E1]. cbn [obind fst snd].
          exists ((nl ++ snd (indent x0 (column_start rows (last_column rows)))) ++ y). eexists. exists W. split; [reflexivity|]. cbn [pout px plast pinter]. split; [rewrite <- !app_assoc; reflexivity|]. split; [split; [exact K'|]; split; [cbn [plast]; congruence|]; split; [exact K2|exact X2]|].
          split; [apply (within_app _ _ _ (column_start rows (last_column rows))); [exact In0|]; rewrite X1, (Hwx Lo) in I' by lia; exact I'|]. split; [left; split; [lia|]; split; [discriminate|lia]|]. split; lia.
      + exists (nl ++ snd (indent x0 (column_start rows c))). eexists. exists (column_start rows c). split; [reflexivity|]. cbn [pout px plast pinter]. split; [reflexivity|]. split; [exact (conj K1 (conj X1 (conj K2 X2)))|]. split; [exact In0|].
        assert (Ec : Z.of_nat c = llast l) by (destruct (Z.eqb_spec (Z.of_nat c) (llast l)); [assumption|rewrite orb_true_r in Ow; discriminate]). split; [left; split; [lia|]; split; [discriminate|lia]|]. split; lia.
  Qed.

  Lemma print_parts_app a b st : print_parts l st (a ++ b) = obind (print_parts l st a) (fun st => print_parts l st b).
  Proof. revert st. induction a as [|p a IH]; intro st; [reflexivity|]. cbn [app print_parts]. destruct (print_part l st p); cbn [obind]; try reflexivity. apply IH. Qed.

  Lemma line_within r e j : In r rows -> row_ok r -> row_plain r -> ender e -> (j < height r)%nat -> forall n c st b, (c + n = length r)%nat -> wrappers_ok st -> ready c b st -> (0 < n)%nat -> ((0 < c)%nat -> 0 <= px st) ->
    exists y st', print_parts l st (map (part_at e r j) (seq c n)) = Ret st' /\ pout st' = pout st ++ y /\ wrappers_ok st' /\ within W b y W /\ 0 <= px st'.
  Proof.
    intros Ir Ho Hp He Hj. induction n as [|n IH]; intros c st b Hn K R N P; [lia|]. cbn [seq map print_parts].
    destruct (print_part_within st b r e j c Ir Ho Hp He Hj ltac:(lia) K R) as (y & st1 & b1 & E1 & O1 & K1 & I1 & R1 & P1 & P1'). rewrite E1. cbn [obind].
    assert (P2 : 0 <= px st1) by (destruct c as [|c]; [apply P1; lia|apply P1'; apply P; lia]).
    destruct n as [|n].
    - exists y, st1. split; [reflexivity|]. split; [exact O1|]. split; [exact K1|]. split; [|exact P2]. apply (within_weaken W b y b1); [exact I1|lia|]. destruct R1 as [(B & _)|(_ & B)]; exact B.
    - destruct R1 as [R1|(L1 & _)]; [|lia]. destruct (IH (S c) st1 b1) as (z & st2 & E2 & O2 & K2 & I2 & P3); [lia|exact K1|exact R1|lia|intros _; exact P2|]. exists (y ++ z), st2. split; [exact E2|]. split; [rewrite O2, O1, <- app_assoc; reflexivity|]. split; [exact K2|]. split; [apply (within_app _ _ _ b1); assumption|exact P3].
  Qed.

  Lemma lines_within r e : In r rows -> row_ok r -> row_plain r -> ender e -> forall js st b, (forall j, In j js -> (j < height r)%nat) -> wrappers_ok st -> b <= W -> (px st < 0 -> b <= 0) ->
    exists y st', print_parts l st (flat_map (fun j => map (part_at e r j) (seq 0 (length r))) js) = Ret st' /\ pout st' = pout st ++ y /\ wrappers_ok st' /\ within W b y W.
  Proof.
    intros Ir Ho Hp He. induction js as [|j js IH]; intros st b Hjs K B P.
    - exists [], st. split; [reflexivity|]. split; [rewrite app_nil_r; reflexivity|]. split; [exact K|]. apply within_nil. lia.
    - cbn [flat_map]. rewrite print_parts_app. destruct (line_within r e j Ir Ho Hp He (Hjs j (or_introl eq_refl)) (length r) 0 st b) as (y & st1 & E1 & O1 & K1 & I1 & P1); [reflexivity|exact K|split; [exact B|]; split; [intros _; exact P|lia]|destruct Ho as (N & _); destruct r; [contradiction|cbn; lia]|lia|]. rewrite E1. cbn [obind].
      destruct (IH st1 W (fun j I => Hjs j (or_intror I)) K1) as (z & st2 & E2 & O2 & K2 & I2); [lia|lia|]. exists (y ++ z), st2. split; [exact E2|]. split; [rewrite O2, O1, <- app_assoc; reflexivity|]. split; [exact K2|]. apply (within_app _ _ _ W); assumption.
  Qed.

  Lemma own_within ps : forall st, (forall p, In p ps -> no_nl (pdata p)) -> wrappers_ok st ->
    exists y st', print_own l st ps = Ret st' /\ pout st' = pout st ++ y /\ wrappers_ok st' /\ within W W y W.
  Proof.
    induction ps as [|p ps IH]; intros st N K; [exists [], st; split; [reflexivity|]; split; [rewrite app_nil_r; reflexivity|]; split; [exact K|]; apply within_nil; lia|]. cbn [print_own]. destruct (pcol p =? llast l).
    - destruct K as (K1 & X1 & K2 & X2). destruct (process_within W (plast st) (pdata p) K1 (N p (or_introl eq_refl))) as (w' & y & E1 & K' & X' & W' & I'). rewrite E1. cbn [obind fst snd]. 
      match goal with |- context [print_own l ?s ps] => destruct (IH s (fun q I => N q (or_intror I))) as (z & st2 & E2 & O2 & K3 & I3) end; [split; [exact K'|]; split; [cbn; congruence|]; split; [exact K2|exact X2]|].
      exists ((newline ++ snd (indent 0 (lwidth l - lright l)) ++ y) ++ z), st2. split; [exact E2|]. split; [rewrite O2; cbn [pout]; rewrite <- !app_assoc; reflexivity|]. split; [exact K3|]. apply (within_app _ _ _ W); [|exact I3].
      apply (within_app _ _ _ 0); [apply within_newline; lia|]. rewrite <- X1. apply (within_app _ _ _ (wx (plast st))); [|exact I']. destruct K1 as (_ & A & B & C & _). apply within_indent; lia.
    - destruct (IH st (fun q I => N q (or_intror I)) K) as (z & st2 & E2 & O2 & K3 & I3). exists z, st2. auto.
  Qed.

  Lemma row_within st r e : In r rows -> row_ok r -> row_plain r -> ender e -> wrappers_ok st -> exists y st', print_row l st (parts_of e r) = Ret st' /\ pout st' = pout st ++ y /\ wrappers_ok st' /\ within W 0 y 0.
  Proof.
    intros Ir Ho Hp He K. unfold print_row, parts_of.
    destruct (lines_within r e Ir Ho Hp He (seq 0 (height r)) {| px := -1; plast := plast st; pinter := pinter st; pout := pout st |} 0) as (y & st1 & E1 & O1 & K1 & I1); [intros j I; apply in_seq in I; lia|exact K|exact HW0|lia|]. rewrite E1. cbn [obind].
    assert (Own : exists z st2, (if lown l then print_own l st1 (parts_of e r) else Ret st1) = Ret st2 /\ pout st2 = pout st1 ++ z /\ wrappers_ok st2 /\ within W W z W).
    { assert (Cases : lown l = true \/ lown l = false) by (destruct (lown l); auto). destruct Cases as [Lo|Lo]; rewrite Lo; [|exists [], st1; split; [reflexivity|]; split; [rewrite app_nil_r; reflexivity|]; split; [exact K1|apply within_nil; lia]]. apply own_within; [|exact K1]. intros p I. destruct (parts_in e r p I) as (j & c & Hj & Hc & ->). apply part_text_nl; assumption. }
    unfold parts_of in Own. destruct Own as (z & st2 & E2 & O2 & (K2 & X2 & K3 & X3) & I2). rewrite E2. cbn [obind]. destruct (flush_within W (plast st2) K2) as (F1 & F2 & F3 & F4 & _). destruct (flush_within W (pinter st2) K3) as (G1 & G2 & G3 & G4 & _).
    exists (y ++ z ++ newline ++ snd (flush (plast st2)) ++ snd (flush (pinter st2))). eexists. split; [reflexivity|]. cbn [pout plast pinter]. split; [rewrite O2, O1; cbn [pout]; rewrite <- !app_assoc; reflexivity|]. split; [split; [exact F1|]; split; [cbn; congruence|]; split; [exact G1|cbn; congruence]|].
    apply (within_app _ _ _ W); [exact I1|]. apply (within_app _ _ _ W); [exact I2|]. apply (within_app _ _ _ 0); [apply within_newline; lia|]. apply (within_app _ _ _ 0); assumption.
  Qed.

  Lemma rows_within pss rs : Forall2 parts_for pss rs -> (forall r, In r rs -> In r rows /\ row_plain r) -> forall st, wrappers_ok st -> exists y st', print_rows l st pss = Ret st' /\ pout st' = pout st ++ y /\ within W 0 y 0.
  Proof.
    intro F. induction F as [|ps r pss rs (Hr & e & He & ->) F IH]; intros H st K; [exists [], st; split; [reflexivity|]; split; [rewrite app_nil_r; reflexivity|apply within_nil; lia]|].
    cbn [print_rows]. destruct (H r (or_introl eq_refl)) as (Ir & Hp). destruct (row_within st r e Ir Hr Hp He K) as (y & st1 & E1 & O1 & K1 & I1). rewrite E1. cbn [obind]. destruct (IH (fun q I => H q (or_intror I)) st1 K1) as (z & st2 & E2 & O2 & I2). exists (y ++ z), st2. split; [exact E2|]. split; [rewrite O2, O1, <- app_assoc; reflexivity|apply (within_app _ _ _ 0); assumption].
  Qed.
End Fit.

Lemma table_within width mw ow pss rows : 1 <= width <= 10000 -> Forall2 parts_for pss rows -> (forall r, In r rows -> row_plain r) -> column_start rows (last_column rows) + 2 <= width -> 2 <= ow <= width ->
  exists y, print_table width mw ow pss = Ret y /\ within width 0 y 0.
Proof.
  intros W F Hp H Ho. destruct (fit_widths width pss rows W F H) as (E & T). unfold print_table. rewrite E. cbn [obind]. set (l := layout_of width mw ow (measure 10000 pss)).
  assert (El : llast l = Z.of_nat (last_column rows)) by (unfold l; cbn [layout_of llast]; apply measure_last; exact F).
  assert (Eo : llast l = 0 -> lown l = false) by (intro Z0; unfold l, layout_of in *; cbn [llast lown] in *; rewrite Z0; reflexivity).
  pose proof (column_start_mono rows (last_column rows) (last_column rows) (le_n _)) as M.
  assert (Er : lright l = width - column_start rows (last_column rows) \/ lright l = ow).
  { unfold l, layout_of. cbn [lright]. rewrite (measure_last 10000 pss rows F), T by lia. destruct (_ && _)%bool; [right|left]; reflexivity. }
  assert (Ew : lown l = false -> (0 < last_column rows)%nat -> lright l = width - column_start rows (last_column rows)).
  { unfold l, layout_of. cbn [lright lown]. rewrite (measure_last 10000 pss rows F), T by lia. intros Q Q2. destruct (Z.eqb_spec (Z.of_nat (last_column rows)) 0); [lia|]. destruct (_ && _)%bool; [discriminate|reflexivity]. }
  assert (Ea : lwidth l = width) by reflexivity.
  destruct (rows_within width l rows El Eo) with (pss := pss) (rs := rows) (st := {| px := -1; plast := wrapper_new (lwidth l - lright l) (lwidth l); pinter := wrapper_new 0 (lwidth l); pout := [] |}) as (y & st' & E' & O & I).
  - intros c Hc. exact (T c Hc).
  - lia.
  - lia.
  - intros Q Q2. rewrite Ea, (Ew Q Q2). lia.
  - exact F.
  - intros r I. split; [exact I|exact (Hp r I)].
  - split; [|split; [reflexivity|split; [|reflexivity]]].
    + split; [apply new_ring|]. cbn [plast wrapper_new wx wwidth]. rewrite Ea. split; [lia|]. destruct (width - (width - lright l) <? 2) eqn:Q; (split; [lia|]); (split; [lia|]); constructor.
    + split; [apply new_ring|]. cbn [pinter wrapper_new wx wwidth]. rewrite Ea. split; [lia|]. destruct (width - 0 <? 2) eqn:Q; (split; [lia|]); (split; [lia|]); constructor.
  - rewrite E'. cbn [obind]. exists y. split; [rewrite O; reflexivity|exact I].
Qed.

(** ** The layout when everything fits *)
Lemma process_whole w data : ring w -> 2 <= wwidth w -> queue w = [] -> columns data <= wwidth w -> exists w', process w data = Ret (w', data) /\ ring w' /\ queue w' = [] /\ wx w' = wx w /\ wwidth w' = wwidth w.
Proof.
  intros R H Q C. rewrite process_eq by exact H. unfold finished. destruct data as [|c data].
  - cbn [pieces pieces_loop outputs fst snd wrote set_wrote app]. destruct (write_one_eq (set_wrote w false) R) as (w2 & E & R2 & Q2 & X2 & W2 & O2). exists w2. rewrite E. cbn [fst snd lead set_wrote wrote app]. unfold popped. rewrite set_wrote_queue, Q in *. split; [reflexivity|]. split; [exact R2|]. split; [exact Q2|]. split; [exact X2|exact W2].
  - rewrite pieces_whole by (discriminate || exact C). remember (c :: data) as d eqn:Ed. clear Ed. cbn [outputs]. destruct (output_eq (set_wrote w false) d R) as (w1 & x & E & R1 & X1 & W1 & D). rewrite E. cbn [fst snd]. rewrite set_wrote_queue, Q in D. destruct D as [(-> & Q1 & O1)|(p & q & D & _)]; [|discriminate]. cbn [app] in Q1. change (wrote (set_wrote w false)) with false in O1. rewrite O1.
    destruct (write_one_eq w1 R1) as (w2 & E2 & R2 & Q2 & X2 & W2 & O2). rewrite E2. cbn [fst snd]. exists w2. unfold lead, popped. rewrite O1, Q1. cbn [app]. rewrite Q1 in Q2. split; [reflexivity|]. split; [exact R2|]. split; [exact Q2|]. split; [rewrite X2; exact X1|rewrite W2; exact W1].
Qed.
Lemma flush_empty w : ring w -> queue w = [] -> flush w = (w, []).
Proof. intros R Q. unfold flush. rewrite (proj2 (empty_eq w R) Q). reflexivity. Qed.
Lemma indent_right x want : 0 <= x <= want -> indent x want = (want, spaces (want - x)).
Proof. intro H. unfold indent. replace (want - x <? 0) with false by lia. destruct (0 <? want - x) eqn:E; [reflexivity|]. replace (want - x) with 0 by lia. f_equal. lia. Qed.

Section Exact.
  Variables (width : Z) (l : layout) (t : list row).
  Hypothesis Hlast : llast l = Z.of_nat (last_column t).
  Hypothesis Hown : lown l = false.
  Hypothesis Hstop : forall c, (c <= last_column t)%nat -> tabstop (lwidths l) (Z.of_nat c) = column_start t c.
  Hypothesis Hfits : fits width t.

  Definition wrappers_fit (st : pstate) : Prop :=
    ring (plast st) /\ queue (plast st) = [] /\ 2 <= wwidth (plast st) /\ ((0 < last_column t)%nat -> column_width t (last_column t) <= wwidth (plast st)) /\
    ring (pinter st) /\ queue (pinter st) = [] /\ 2 <= wwidth (pinter st) /\ width <= wwidth (pinter st).

  Lemma cell_text r c : single_lines r -> (c < length r)%nat -> nth 0 (nth c r []) [] = concat (nth c r []).
  Proof. intros S1 Hc. specialize (S1 (nth c r []) (nth_In r [] Hc)). destruct (nth c r []) as [|a [|b k]]; cbn in S1; try lia. cbn. rewrite app_nil_r. reflexivity. Qed.
  Lemma skipn_cons (r : row) c : (c < length r)%nat -> skipn c r = nth c r [] :: skipn (S c) r.
  Proof. revert r. induction c as [|c IH]; intros [|x r] L; cbn [length] in L; try lia; [reflexivity|]. cbn [skipn nth]. apply IH. lia. Qed.

  Lemma last_ge r c : In r t -> (c < length r)%nat -> (c <= last_column t)%nat.
  Proof. intros I Hc. destruct (proj1 Hfits r I) as (_ & L8 & _). destruct (last_column_max t) as (_ & B & _). specialize (B r I). lia. Qed.

  Lemma line_exact r e : In r t -> row_ok r -> ender e -> interjection r = false -> forall n c st, (c + n = length r)%nat -> (0 < n)%nat -> wrappers_fit st ->
    (c = 0%nat /\ px st = -1 \/ (0 < c)%nat /\ 0 <= px st <= column_start t c) ->
    exists st', print_parts l st (map (part_at e r 0) (seq c n)) = Ret st' /\ wrappers_fit st' /\ pout st' = pout st ++ (if (c =? 0)%nat then [] else spaces (column_start t c - px st)) ++ aligned t c (skipn c r).
  Proof.
    intros Ir Ho He Ei. destruct (proj1 Hfits r Ir) as (S1 & L8 & _). induction n as [|n IH]; intros c st Hn N K P; [lia|]. cbn [seq map print_parts].
    assert (Hc : (c < length r)%nat) by lia. pose proof (last_ge r c Ir Hc) as Hcl. assert (Hh : (0 < height r)%nat).
    { pose proof (height_pos r (nth c r []) (nth_In r [] Hc)) as Hp. pose proof (S1 (nth c r []) (nth_In r [] Hc)) as Hq. eapply Nat.lt_le_trans; [|exact Hp]. eapply Nat.lt_le_trans; [|apply Nat.eq_le_incl; symmetry; exact Hq]. lia. }
    rewrite (skipn_cons r c Hc). unfold print_part. cbn [pcol part_at]. fold (part_at e r 0 c). replace (llast l <? Z.of_nat c) with false by lia. rewrite (Hstop c Hcl), Hown. cbn [negb orb].
    assert (In0 : (if (Z.of_nat c =? 0) && (0 <=? px st) then newline else []) ++ snd (indent (if Z.of_nat c =? 0 then 0 else px st) (column_start t c)) = (if (c =? 0)%nat then [] else spaces (column_start t c - px st)) /\ fst (indent (if Z.of_nat c =? 0 then 0 else px st) (column_start t c)) = column_start t c).
    { destruct P as [(-> & ->)|(C0 & P)]; [split; reflexivity|]. replace (Z.of_nat c =? 0) with false by lia. replace (c =? 0)%nat with false by lia. rewrite indent_right by exact P. split; reflexivity. }
    destruct In0 as (In0 & Ex). rewrite Ex, (in_table_row e r 0 c He Ho Hc Hh), Ei. cbn [negb]. rewrite andb_true_r.
    pose proof (column_start_mono t c c (le_n _)) as M.
    assert (Cc : columns (concat (nth c r [])) <= column_width t c).
    { rewrite <- (cell_text r c S1 Hc). apply (proj1 (proj2 (column_width_max t c)) r); [exact Ir|exact Ei|]. apply nth_In. pose proof (S1 (nth c r []) (nth_In r [] Hc)) as Hq. eapply Nat.lt_le_trans; [|apply Nat.eq_le_incl; symmetry; exact Hq]. lia. }
    assert (Tx : pdata (part_at e r 0 c) = concat (nth c r [])) by (exact (cell_text r c S1 Hc)). assert (Sx : pscreen (part_at e r 0 c) = columns (concat (nth c r []))) by (cbn [pscreen part_at]; f_equal; exact Tx).
    destruct (Z.of_nat c <? llast l) eqn:Dr.
    - rewrite Tx, Sx. cbn [obind]. destruct n as [|n].
      + assert (Er : skipn (S c) r = []) by (apply skipn_all2; lia). rewrite Er. cbn [map seq print_parts]. eexists. split; [reflexivity|]. split; [exact K|]. cbn [pout aligned]. rewrite app_nil_r, <- In0, <- !app_assoc. reflexivity.
      + pose proof (columns_nonneg (concat (nth c r []))).
        match goal with |- context [print_parts l ?s (map _ (seq (S c) (S n)))] => destruct (IH (S c) s ltac:(lia) ltac:(lia) K) as (st' & E' & K' & O') end.
        { right. split; [lia|]. cbn [px]. rewrite column_start_next. lia. }
        exists st'. split; [exact E'|]. split; [exact K'|]. rewrite O'. cbn [pout px Nat.eqb]. rewrite <- In0. cbn [aligned]. replace (column_start t (S c) - (column_start t c + columns (concat (nth c r [])))) with (column_width t c - columns (concat (nth c r []))) by (rewrite column_start_next; lia). pose proof (skipn_cons r (S c) ltac:(lia)) as Sk. destruct (skipn (S c) r) as [|x xs]; [discriminate|]. rewrite <- !app_assoc. reflexivity.
    - assert (Ec : c = last_column t) by lia. assert (C0 : (0 < c)%nat).
      { destruct (Nat.eq_dec c 0) as [Z0|]; [|lia]. exfalso. assert (length r = 1)%nat by (pose proof (last_ge r (length r - 1) Ir ltac:(lia)); lia). destruct r as [|[|a [|b k]] [|? ?]]; cbn in *; try discriminate; try lia. specialize (S1 _ (or_introl eq_refl)). cbn in S1. lia. }
      replace (Z.of_nat c =? 0) with false in * by lia. cbn [andb app] in In0. rewrite Tx. destruct K as (K1 & K2 & K3 & K4 & K5). destruct (process_whole (plast st) (concat (nth c r [])) K1 K3 K2) as (w' & E1 & R1 & Q1 & X1 & W1); [specialize (K4 ltac:(lia)); rewrite <- Ec in K4; lia|]. rewrite E1. cbn [obind fst snd].
      assert (n = 0)%nat by (pose proof (last_ge r (length r - 1) Ir ltac:(lia)); lia). subst n. assert (Er : skipn (S c) r = []) by (apply skipn_all2; lia). rewrite Er. cbn [map seq print_parts]. eexists. split; [reflexivity|]. cbn [pout aligned andb app]. split; [split; [exact R1|]; split; [exact Q1|]; cbn [plast pinter]; rewrite W1; split; [exact K3|]; split; [exact K4|exact K5]|]. rewrite app_nil_r, <- In0, <- !app_assoc. reflexivity.
  Qed.

  Lemma row_exact r e st : In r t -> row_ok r -> ender e -> wrappers_fit st -> exists st', print_row l st (parts_of e r) = Ret st' /\ wrappers_fit st' /\ pout st' = pout st ++ aligned t 0 r ++ newline.
  Proof.
    intros Ir Ho He K. destruct (proj1 Hfits r Ir) as (S1 & L8 & Hi). unfold print_row. rewrite Hown.
    assert (Hl : (0 < length r)%nat) by (destruct Ho as (N & _); destruct r; [contradiction|cbn; lia]).
    assert (Hh : height r = 1%nat). { unfold height. clear -S1 Hl. assert (G : forall r : row, single_lines r -> fold_right Nat.max 0%nat (map (@length str) r) = if (length r =? 0)%nat then 0%nat else 1%nat). { induction r0 as [|x r0 IH]; intro H; [reflexivity|]. cbn [map fold_right length Nat.eqb]. rewrite IH by (intros q Q; apply H; right; exact Q). rewrite (H x (or_introl eq_refl)). destruct (length r0 =? 0)%nat; reflexivity. } rewrite G by exact S1. replace (length r =? 0)%nat with false by lia. reflexivity. }
    unfold parts_of. rewrite Hh. cbn [seq flat_map]. rewrite app_nil_r.
    assert (G : exists st', print_parts l {| px := -1; plast := plast st; pinter := pinter st; pout := pout st |} (map (part_at e r 0) (seq 0 (length r))) = Ret st' /\ wrappers_fit st' /\ pout st' = pout st ++ aligned t 0 r).
    { destruct (interjection r) eqn:Ei.
      - assert (Er : exists a, r = [[a]]) by (destruct r as [|[|a [|b k]] [|? ?]]; cbn in Ei; try discriminate; exists a; reflexivity). destruct Er as (a & ->). cbn [length seq map print_parts]. unfold print_part. cbn [pcol part_at]. fold (part_at e [[a]] 0 0). replace (llast l <? Z.of_nat 0) with false by lia. rewrite (Hstop 0%nat) by lia. change (column_start t 0) with 0. rewrite (in_table_row e [[a]] 0 0 He Ho) by (cbn; lia). cbn [interjection negb]. rewrite andb_false_r, Hown. cbn [negb orb Z.of_nat Z.eqb andb px pout pinter plast].
        destruct K as (K1 & K2 & K3 & K4 & K5 & K6 & K7 & K8). specialize (Hi eq_refl). assert (Ha : concat (concat [[a]]) = a) by (cbn [concat app]; apply app_nil_r). rewrite Ha in Hi. destruct (process_whole (pinter st) a K5 K7 K6) as (w' & E1 & R1 & Q1 & X1 & W1); [lia|]. cbn [pdata part_at nth] in *. rewrite E1. cbn [obind fst snd]. eexists. split; [reflexivity|]. split; [|cbn [pout aligned concat indent snd]; rewrite !app_nil_r; reflexivity].
        split; [exact K1|]. split; [exact K2|]. split; [exact K3|]. split; [exact K4|]. cbn [pinter]. split; [exact R1|]. split; [exact Q1|]. rewrite W1. split; assumption.
      - destruct (line_exact r e Ir Ho He Ei (length r) 0 {| px := -1; plast := plast st; pinter := pinter st; pout := pout st |}) as (st' & E & K' & O); [reflexivity|exact Hl|exact K|left; split; reflexivity|]. exists st'. split; [exact E|]. split; [exact K'|]. exact O. }
    destruct G as (st' & E & K' & O). rewrite E. cbn [obind]. pose proof K' as (K1 & K2 & K3 & K4 & K5 & K6 & K7 & K8). rewrite (flush_empty _ K1 K2), (flush_empty _ K5 K6). cbn [fst snd]. eexists. split; [reflexivity|]. split; [exact K'|]. cbn [pout app]. rewrite O. rewrite <- app_assoc. reflexivity.
  Qed.

  Lemma rows_exact pss rs : Forall2 parts_for pss rs -> (forall r, In r rs -> In r t) -> forall st, wrappers_fit st -> exists st', print_rows l st pss = Ret st' /\ pout st' = pout st ++ concat (map (fun r => aligned t 0 r ++ newline) rs).
  Proof.
    intro F. induction F as [|ps r pss rs (Hr & e & He & ->) F IH]; intros H st K; [exists st; split; [reflexivity|]; cbn; rewrite app_nil_r; reflexivity|]. cbn [print_rows]. destruct (row_exact r e st (H r (or_introl eq_refl)) Hr He K) as (st1 & E1 & K1 & O1). rewrite E1. cbn [obind]. destruct (IH (fun q I => H q (or_intror I)) st1 K1) as (st2 & E2 & O2). exists st2. split; [exact E2|]. rewrite O2, O1. cbn [map concat]. rewrite <- !app_assoc. reflexivity.
  Qed.
End Exact.

Lemma table_exact width mw ow pss t : 1 <= width <= 10000 -> Forall2 parts_for pss t -> fits width t -> print_table width mw ow pss = Ret (concat (map (fun r => aligned t 0 r ++ newline) t)).
Proof.
  intros W F Hf. pose proof Hf as (_ & H1 & H2 & H3). destruct (fit_widths width pss t W F H2) as (E & T). unfold print_table. rewrite E. cbn [obind]. set (l := layout_of width mw ow (measure 10000 pss)). destruct (last_column_max t) as (L7 & _ & _). rewrite column_start_next in H1.
  pose proof (column_start_mono t (last_column t) (last_column t) (le_n _)) as M.
  assert (El : llast l = Z.of_nat (last_column t)) by (unfold l; cbn [layout_of llast]; apply measure_last; exact F).
  assert (Ec : (0 < last_column t)%nat -> col_at (snd (measure 10000 pss)) (Z.of_nat (last_column t)) = column_width t (last_column t)) by (intro L0; apply measure_col; [exact F|lia|lia]).
  assert (Eo : lown l = false). { unfold l, layout_of. cbn [lown]. rewrite (measure_last 10000 pss t F), T by lia. destruct (Z.eqb_spec (Z.of_nat (last_column t)) 0) as [|N]; [reflexivity|]. rewrite Ec by lia. destruct (width - column_start t (last_column t) <? mw); [|reflexivity]. cbn [andb]. destruct H3 as [H3|H3]; [lia|]. lia. }
  assert (Er : (0 < last_column t)%nat -> lright l = width - column_start t (last_column t)).
  { intro L0. unfold l, layout_of. cbn [lright]. rewrite (measure_last 10000 pss t F), T, Ec by lia. destruct H3 as [H3|H3]; [lia|]. replace ((column_width t (last_column t) =? 0) || (width - column_start t (last_column t) <? column_width t (last_column t)))%bool with false by lia. rewrite andb_false_r. reflexivity. }
  destruct (rows_exact width l t El Eo) with (pss := pss) (rs := t) (st := {| px := -1; plast := wrapper_new (lwidth l - lright l) (lwidth l); pinter := wrapper_new 0 (lwidth l); pout := [] |}) as (st' & E' & O).
  - intros c Hc. exact (T c Hc).
  - exact Hf.
  - exact F.
  - auto.
  - split; [apply new_ring|]. split; [reflexivity|]. split; [apply wrapper_width|]. split; [|split; [apply new_ring|]; split; [reflexivity|]; split; [apply wrapper_width|]].
    + intro L0. change (lwidth l) with width. rewrite (Er L0). cbn [plast wrapper_new wwidth]. destruct (_ <? 2) eqn:Q; lia.
    + change (lwidth l) with width. cbn [pinter wrapper_new wwidth]. destruct (width - 0 <? 2) eqn:Q; lia.
  - rewrite E'. cbn [obind]. rewrite O. reflexivity.
Qed.

(** ** The whole text *)
Lemma split_in c t p x : In p (split_on c t) -> In x p -> In x t.
Proof.
  revert p. induction t as [|y t IH]; intros p I X; [destruct I as [<-|[]]; destruct X|]. cbn [split_on] in I. destruct (Ascii.eqb y c); [destruct I as [<-|I]; [destruct X|right; exact (IH p I X)]|].
  destruct (split_on c t) as [|q qs] eqn:E; [destruct I as [<-|[]]; destruct X as [<-|[]]; left; reflexivity|]. destruct I as [<-|I]; [destruct X as [<-|X]; [left; reflexivity|right; exact (IH q (or_introl eq_refl) X)]|right; exact (IH p (or_intror I) X)].
Qed.
Lemma rows_of_plain h r : In r (rows_of h) -> row_plain r.
Proof.
  unfold rows_of. intro I. apply in_map_iff in I. destruct I as (t & <- & It). intros cell l Ic Il x X. unfold row_of in Ic. apply in_map_iff in Ic. destruct Ic as (p & <- & Ip). apply (split_no_nl_in h t It). apply (split_in TAB t p x Ip). exact (split_in VT p l x Il X).
Qed.
Lemma tables_plain u t r : In t (tables u) -> In r t -> row_plain r.
Proof.
  revert t. induction u as [|e u IH]; intros t It Ir; [destruct It|]. cbn [tables] in It. destruct (help e) as [h|]; [|exact (IH t It Ir)]. destruct u as [|e2 u]; [destruct It as [<-|[]]; exact (rows_of_plain h r Ir)|]. destruct (help e2).
  - destruct (tables (e2 :: u)) as [|t1 ts] eqn:E; [destruct It as [<-|[]]; exact (rows_of_plain h r Ir)|]. destruct It as [<-|It]; [apply in_app_or in Ir; destruct Ir as [Ir|Ir]; [exact (rows_of_plain h r Ir)|exact (IH t1 (or_introl eq_refl) Ir)]|exact (IH t (or_intror It) Ir)].
  - destruct It as [<-|It]; [exact (rows_of_plain h r Ir)|exact (IH t It Ir)].
Qed.

Lemma percent_ok width p : -214748 <= p <= 214748 -> percent_of (used width) p = Ret ((used width * p + 50) ÷ 100).
Proof. intro H. unfold percent_of. pose proof (used_bounds width). replace ((- 2 ^ 31 <=? used width * p) && (used width * p + 50 <? 2 ^ 31)) with true; [reflexivity|]. symmetry. apply andb_true_iff. nia. Qed.

Definition own_of (q : Z) : Z := if q =? 0 then 1 else q.
Lemma usage_all u more width mp op : proper u -> -214748 <= mp <= 214748 -> -214748 <= op <= 214748 -> exists a, print_usage (u ++ the_end :: more) width mp op = print_all (used width) a (own_of ((used width * op + 50) ÷ 100)) (tparts (length u) u).
Proof. intros P A B. exists ((used width * mp + 50) ÷ 100). apply print_usage_eq; [exact P|apply percent_ok; exact A|apply percent_ok; exact B]. Qed.

Lemma usage_prints u more width mp op : proper u -> -214748 <= mp <= 214748 -> -214748 <= op <= 214748 ->
  exists xss, print_usage (u ++ the_end :: more) width mp op = Ret (concat (concat xss)) /\ Forall2 (Forall2 prints) (tables u) xss.
Proof. intros P A B. destruct (usage_all u more width mp op P A B) as (a & E). rewrite E. apply print_all_inv; [apply used_bounds|]. apply tparts_tables. lia. Qed.

Lemma all_within width mw ow ts tables0 : 1 <= width <= 10000 -> Forall2 (Forall2 parts_for) ts tables0 -> (forall t r, In t tables0 -> In r t -> row_plain r) -> (forall t, In t tables0 -> column_start t (last_column t) + 2 <= width) -> 2 <= ow <= width ->
  exists out, print_all width mw ow ts = Ret out /\ within width 0 out 0.
Proof.
  intros W F Hp H Ho. induction F as [|pss t ts tables0 K F IH]; [exists []; split; [reflexivity|apply within_nil; lia]|]. cbn [print_all].
  destruct (table_within width mw ow pss t W K (fun r I => Hp t r (or_introl eq_refl) I) (H t (or_introl eq_refl)) Ho) as (x & E & I). rewrite E. cbn [obind]. destruct IH as (y & E2 & I2); [intros t0 r A B; exact (Hp t0 r (or_intror A) B)|intros t0 A; exact (H t0 (or_intror A))|]. rewrite E2. cbn [obind]. exists (x ++ y). split; [reflexivity|]. exact (within_app _ _ _ _ _ _ I I2).
Qed.
Lemma usage_within u more width mp op : proper u -> -214748 <= mp <= 214748 -> (forall t, In t (tables u) -> column_start t (last_column t) + 2 <= used width) -> 0 <= op <= 100 -> 2 <= (used width * op + 50) / 100 ->
  exists out, print_usage (u ++ the_end :: more) width mp op = Ret out /\ Forall (fun l => columns l <= used width) (split_on NL out).
Proof.
  intros P A H B B2. destruct (usage_all u more width mp op P A ltac:(lia)) as (a & E). pose proof (used_bounds width) as U.
  assert (Bb : 2 <= (used width * op + 50) ÷ 100 <= used width). { rewrite Z.quot_div_nonneg by nia. split; [exact B2|]. apply Z.lt_succ_r. apply Z.div_lt_upper_bound; [lia|]. nia. }
  destruct (all_within (used width) a (own_of ((used width * op + 50) ÷ 100)) (tparts (length u) u) (tables u)) as (out & E2 & I); [lia|apply tparts_tables; lia|intros t r; apply tables_plain|exact H|unfold own_of; destruct (_ =? 0) eqn:Q; lia|].
  exists out. split; [congruence|]. exact (proj1 (I [] (fun c K => match K with end) ltac:(change (columns []) with 0; lia))).
Qed.

Lemma usage_exact u more width mp op : proper u -> -214748 <= mp <= 214748 -> -214748 <= op <= 214748 -> (forall t, In t (tables u) -> fits (used width) t) ->
  print_usage (u ++ the_end :: more) width mp op = Ret (flat_map (fun t => flat_map (fun r => aligned t 0 r ++ [NL]) t) (tables u)).
Proof.
  intros P A B H. destruct (usage_all u more width mp op P A B) as (a & E). rewrite E. clear E. generalize (own_of ((used width * op + 50) ÷ 100)) as b. intro b. pose proof (used_bounds width) as U. pose proof (tparts_tables (length u) u (le_n _)) as F. revert H. generalize (tables u) (tparts (length u) u) F. clear -U. intros ts pss F.
  induction F as [|ps t pss ts K F IH]; intro H; [reflexivity|]. cbn [print_all flat_map]. rewrite (table_exact (used width) a b ps t U K (H t (or_introl eq_refl))). cbn [obind]. rewrite (IH (fun q I => H q (or_intror I))). cbn [obind]. rewrite (flat_map_concat_map _ t). reflexivity.
Qed.

Lemma interleaved_count c ts x : interleaved ts x -> occurrences c x = list_sum (map (occurrences c) ts).
Proof.
  unfold occurrences. induction 1 as [ts H|a d t b x I IH].
  - cbn. induction ts as [|t ts IHt]; [reflexivity|]. cbn. rewrite (H t (or_introl eq_refl)). cbn. apply IHt. intros u K. apply H. right. exact K.
  - rewrite map_app, list_sum_app in *. cbn [map] in *. change (list_sum (?x :: ?l)) with (x + list_sum l)%nat in *. cbn [count_occ]. destruct (ascii_dec d c); rewrite IH; lia.
Qed.
Lemma ink_count c t : Ascii.eqb c " " = false -> Ascii.eqb c NL = false -> occurrences c (ink t) = occurrences c t.
Proof.
  intros A B. unfold occurrences, ink. induction t as [|x t IH]; [reflexivity|]. cbn [filter count_occ]. destruct (ascii_dec x c) as [->|N].
  - rewrite A, B. cbn [orb negb count_occ]. destruct (ascii_dec c c); [rewrite IH; reflexivity|contradiction].
  - destruct (negb _); [cbn [count_occ]; destruct (ascii_dec x c); [contradiction|exact IH]|exact IH].
Qed.
Lemma columns_count c r : Ascii.eqb c " " = false -> Ascii.eqb c NL = false -> (length r <= 8)%nat -> list_sum (map (occurrences c) (columns_ink r)) = occurrences c (concat (concat r)).
Proof.
  intros A B L. unfold columns_ink. rewrite map_map.
  assert (G : forall n k, (k + n)%nat = 8%nat -> list_sum (map (fun x => occurrences c (column_ink r x)) (seq k n)) = occurrences c (concat (concat (skipn k r)))).
  { induction n as [|n IH]; intros k K.
    - rewrite skipn_all2 by lia. reflexivity.
    - cbn [seq map]. change (list_sum (?x :: ?l)) with (x + list_sum l)%nat. rewrite IH by lia. unfold column_ink. rewrite ink_count by assumption. destruct (Nat.lt_ge_cases k (length r)) as [H|H].
      + assert (Sk : skipn k r = nth k r [] :: skipn (S k) r) by (clear -H; revert r H; induction k as [|k IH]; intros [|x r] L; cbn [length] in L; try lia; [reflexivity|]; cbn [skipn nth]; apply IH; lia). rewrite Sk. cbn [concat]. rewrite concat_app. unfold occurrences. rewrite count_occ_app. reflexivity.
      + rewrite nth_overflow, !skipn_all2 by lia. reflexivity. }
  apply (G 8%nat 0%nat eq_refl).
Qed.
Lemma prints_count c r x : prints r x -> Ascii.eqb c " " = false -> Ascii.eqb c NL = false -> (length r <= 8)%nat -> occurrences c x = occurrences c (concat (concat r)).
Proof. intros (H & _) A B L. rewrite <- (ink_count c x A B), (interleaved_count c _ _ H). apply columns_count; assumption. Qed.
