(** Proofs on the widths of lines, for C125 and C126. *)
From Verif Require Import Usage_model Usage_spec UsageIter_proofs UsageWrap_proofs.
From Coq Require Import Lia ZifyBool ZifyNat ZifyN.
Local Open Scope nat_scope.

(** ** Columns *)
Notation cols := (columns_after 0).

Lemma continuation_small c : continuation c = true -> (code c <= 0xBF)%N.
Proof. destruct c as [[] [] [] [] [] [] [] []]; vm_compute; congruence. Qed.
Lemma one_char_cont c p : continuation c = true -> one_char c p = (1, 1).
Proof. intro H. apply continuation_small in H. unfold one_char. destruct (0xC1 <? code c)%N eqn:E; [lia|reflexivity]. Qed.
Lemma one_char_cols c p : 1 <= snd (one_char c p) <= 2.
Proof. unfold one_char. destruct (0xC1 <? code c)%N; [cbn [snd]; destruct (_ && _)%bool; lia|cbn; lia]. Qed.

(** [decode] of a longer text: either it stops at the same place, or it takes all of the first part *)
Lemma decode_more ch a b : decode ch (a ++ b) = decode ch a \/ (snd (decode ch a) = length a /\ exists m, snd (decode ch (a ++ b)) = length a + m /\ 1 <= m <= length b /\ (forall k, k < m -> continuation (nth k b NUL) = true)).
Proof.
  revert ch. induction a as [|c a IH]; intro ch; cbn [app decode].
  - cbn [snd length plus]. destruct (snd (decode ch b)) as [|m] eqn:E.
    + left. destruct b as [|x b]; [reflexivity|]. cbn [decode] in *. destruct (continuation x); [discriminate|reflexivity].
    + right. split; [reflexivity|]. exists (S m). split; [reflexivity|]. split; [pose proof (decode_le ch b); lia|]. revert ch m E. induction b as [|x b IHb]; intros ch m E k K; [discriminate|]. cbn [decode] in E. destruct (continuation x) eqn:C; [|discriminate]. cbn [snd] in E. injection E as E. destruct k as [|k]; [exact C|]. cbn [nth]. destruct m as [|m]; [lia|]. apply (IHb _ m E). lia.
  - destruct (continuation c); [|left; reflexivity]. destruct (IH (N.lxor (N.lxor ((N.shiftl ch 6) mod 2 ^ 32) (code c)) 0x80)%N) as [E|(E & m & E2 & L & C)]; [left; rewrite E; reflexivity|right]. cbn [snd length]. split; [lia|]. exists m. split; [lia|]. split; [exact L|exact C].
Qed.
Lemma cols_conts m : forall b, m <= length b -> (forall k, k < m -> continuation (nth k b NUL) = true) -> cols b = m + cols (skipn m b).
Proof.
  induction m as [|m IH]; intros b L C; [reflexivity|]. destruct b as [|c b]; [cbn in L; lia|]. cbn [columns_after skipn]. rewrite one_char_cont by (apply (C 0); lia). cbn [fst snd]. cbn [length] in L. rewrite IH; [lia|lia|]. intros k K. apply (C (S k)). lia.
Qed.

Lemma cols_cons c t : cols (c :: t) = snd (one_char c t) + cols (skipn (fst (one_char c t)) (c :: t)).
Proof. cbn [columns_after]. pose proof (one_char_le c t) as K. rewrite columns_skip by lia. destruct (fst (one_char c t)) as [|n] eqn:E; [lia|]. cbn [skipn]. replace (S n - 1) with n by lia. reflexivity. Qed.

Lemma one_char_more c a b : one_char c (a ++ b) = one_char c a /\ fst (one_char c a) <= S (length a) \/
  fst (one_char c a) = S (length a) /\ exists m, fst (one_char c (a ++ b)) = S (length a) + m /\ 1 <= m <= length b /\ (forall k, k < m -> continuation (nth k b NUL) = true).
Proof.
  unfold one_char. destruct (0xC1 <? code c)%N; [|left; split; [reflexivity|cbn; lia]]. destruct (decode_more (N.land (code c) (mask (code c))) a b) as [E|(E & m & E2 & L & C)].
  - left. rewrite E. split; [reflexivity|]. cbn [fst]. pose proof (decode_le (N.land (code c) (mask (code c))) a). lia.
  - right. cbn [fst]. split; [lia|]. exists m. split; [lia|]. split; [exact L|exact C].
Qed.

Lemma cols_app_le n : forall a b, length a <= n -> cols (a ++ b) <= cols a + cols b.
Proof.
  induction n as [|n IH]; intros a b L; (destruct a as [|c a]; [cbn [app]; change (cols []) with 0; lia|]); cbn [length] in L; [lia|].
  rewrite (cols_cons c a). change ((c :: a) ++ b) with (c :: (a ++ b)). rewrite (cols_cons c (a ++ b)).
  destruct (one_char_more c a b) as [(E & F)|(F & m & E & M & C)].
  - rewrite E. change (c :: a ++ b) with ((c :: a) ++ b). rewrite skipn_app. cbn [length]. replace (fst (one_char c a) - S (length a)) with 0 by lia. cbn [skipn].
    pose proof (one_char_le c a). specialize (IH (skipn (fst (one_char c a)) (c :: a)) b). rewrite skipn_length in IH. cbn [length] in IH. lia.
  - rewrite E, F. change (c :: a ++ b) with ((c :: a) ++ b). rewrite skipn_app. cbn [length]. replace (S (length a) + m - S (length a)) with m by lia. rewrite (skipn_all2 (n := S (length a) + m)) by (cbn; lia). rewrite (skipn_all2 (n := S (length a))) by (cbn; lia). cbn [app]. change (cols []) with 0.
    rewrite (cols_conts m b) by (lia || exact C). pose proof (one_char_cols c a). pose proof (one_char_cols c (a ++ b)). lia.
Qed.
Lemma cols_app_eq n : forall a x b, length a <= n -> continuation x = false -> cols (a ++ x :: b) = cols a + cols (x :: b).
Proof.
  induction n as [|n IH]; intros a x b L X; (destruct a as [|c a]; [reflexivity|]); cbn [length] in L; [lia|].
  rewrite (cols_cons c a). change ((c :: a) ++ x :: b) with (c :: (a ++ x :: b)). rewrite (cols_cons c (a ++ x :: b)). rewrite one_char_app by exact X. pose proof (one_char_le c a).
  change (c :: a ++ x :: b) with ((c :: a) ++ x :: b). rewrite skipn_app. cbn [length]. replace (fst (one_char c a) - S (length a)) with 0 by lia. cbn [skipn]. rewrite IH; [lia|rewrite skipn_length; cbn [length]; lia|exact X].
Qed.
Lemma cols_le n : forall t, length t <= n -> cols t <= length t.
Proof.
  induction n as [|n IH]; intros t L; (destruct t as [|c t]; [cbn; lia|]); cbn [length] in L; [lia|]. rewrite cols_cons. pose proof (one_char_le c t). pose proof (one_char_cols c t).
  specialize (IH (skipn (fst (one_char c t)) (c :: t))). rewrite skipn_length in IH. cbn [length] in *.
  assert (K : fst (one_char c t) = 1 -> snd (one_char c t) = 1).
  { unfold one_char. destruct (0xC1 <? code c)%N; [|reflexivity]. cbn [fst snd]. intro F. assert (Z0 : snd (decode (N.land (code c) (mask (code c))) t) = 0) by lia.
    assert (E : decode (N.land (code c) (mask (code c))) t = (N.land (code c) (mask (code c)), 0)) by (destruct t as [|x t]; [reflexivity|]; cbn [decode] in *; destruct (continuation x); [discriminate|reflexivity]). rewrite E. cbn [fst].
    assert (S : (N.land (code c) (mask (code c)) < 0x1100)%N) by (clear; destruct c as [[] [] [] [] [] [] [] []]; vm_compute; reflexivity). destruct (0x1100 <=? N.land (code c) (mask (code c)))%N eqn:Q; [lia|reflexivity]. }
  lia.
Qed.
Lemma cols_pos c t : 1 <= cols (c :: t). Proof. rewrite cols_cons. pose proof (one_char_cols c t). lia. Qed.
Lemma cols_spaces n : cols (repeat " "%char n) = n. Proof. induction n as [|n IH]; [reflexivity|]. cbn [repeat columns_after]. change (one_char " " (repeat " "%char n)) with (1, 1). cbn [fst snd]. change (1 - 1) with 0. rewrite IH. reflexivity. Qed.

Lemma columns_app a b : (columns (a ++ b) <= columns a + columns b)%Z. Proof. unfold columns. pose proof (cols_app_le (length a) a b (le_n _)). lia. Qed.
Lemma columns_spaces n : (0 <= n -> columns (spaces n) = n)%Z. Proof. intro H. unfold columns, spaces. rewrite cols_spaces. lia. Qed.
Lemma columns_nonneg a : (0 <= columns a)%Z. Proof. unfold columns. lia. Qed.

(** ** Lines *)
Definition no_nl (t : str) : Prop := forall c, In c t -> Ascii.eqb c NL = false.
Lemma split_no_nl t : no_nl t -> split_on NL t = [t].
Proof. induction t as [|c t IH]; intro H; [reflexivity|]. cbn [split_on]. rewrite (H c (or_introl eq_refl)), IH by (intros x I; apply H; right; exact I). reflexivity. Qed.
Lemma split_lines a b : split_on NL (a ++ b) = removelast (split_on NL a) ++ split_on NL (last (split_on NL a) [] ++ b).
Proof.
  induction a as [|c a IH]; [reflexivity|]. cbn [app split_on]. rewrite IH. pose proof (split_nonempty NL a) as N. destruct (Ascii.eqb c NL) eqn:E.
  - destruct (split_on NL a); [contradiction|reflexivity].
  - destruct (split_on NL a) as [|l [|m ls]]; [contradiction| |reflexivity]. cbn [removelast last app split_on]. rewrite E. reflexivity.
Qed.
Lemma split_no_nl_in a t : In t (split_on NL a) -> no_nl t.
Proof.
  revert t. induction a as [|c a IH]; intros t I; [destruct I as [<-|[]]; intros x []|]. cbn [split_on] in I. destruct (Ascii.eqb c NL) eqn:E; [destruct I as [<-|I]; [intros x []|exact (IH t I)]|].
  destruct (split_on NL a) as [|l ls] eqn:S; [destruct I as [<-|[]]; intros x [<-|[]]; exact E|]. destruct I as [<-|I]; [intros x [<-|K]; [exact E|exact (IH l (or_introl eq_refl) x K)]|exact (IH t (or_intror I))].
Qed.

(** written from a column at most [a], the text [t] has no line beyond [W], and ends at a column at most [b] *)
Definition within (W a : Z) (t : str) (b : Z) : Prop :=
  forall p, no_nl p -> (columns p <= a)%Z -> Forall (fun l => columns l <= W)%Z (split_on NL (p ++ t)) /\ (columns (last (split_on NL (p ++ t)) []) <= b)%Z.

Lemma within_app W a s b t c : within W a s b -> within W b t c -> within W a (s ++ t) c.
Proof.
  intros H1 H2 p N L. destruct (H1 p N L) as (F1 & L1). rewrite app_assoc, split_lines. set (ls := split_on NL (p ++ s)) in *.
  assert (Q : ls <> []) by apply split_nonempty. pose proof (app_removelast_last [] Q) as Els.
  assert (Nl : no_nl (last ls [])) by (apply (split_no_nl_in (p ++ s)); fold ls; rewrite Els; rewrite last_last; apply in_or_app; right; left; reflexivity).
  destruct (H2 (last ls []) Nl L1) as (F2 & L2). split.
  - apply Forall_app. split; [|exact F2]. rewrite Els in F1. apply Forall_app in F1. exact (proj1 F1).
  - assert (Q2 : split_on NL (last ls [] ++ t) <> []) by apply split_nonempty. rewrite (app_removelast_last [] Q2), app_assoc, last_last. exact L2.
Qed.
Lemma within_text W a t b : no_nl t -> (a + columns t <= b)%Z -> (b <= W)%Z -> within W a t b.
Proof.
  intros N H B p Np L. assert (K : no_nl (p ++ t)) by (intros c I; apply in_app_or in I; destruct I as [I|I]; [exact (Np c I)|exact (N c I)]). rewrite (split_no_nl _ K). cbn [last]. pose proof (columns_app p t). split; [constructor; [lia|constructor]|lia].
Qed.
Lemma within_weaken W a t b a' b' : within W a t b -> (a' <= a)%Z -> (b <= b')%Z -> within W a' t b'.
Proof. intros H A B p N L. destruct (H p N ltac:(lia)) as (F & K). split; [exact F|lia]. Qed.
Lemma within_nil W a b : (a <= b <= W)%Z -> within W a [] b.
Proof. intro H. apply within_text; [intros c []|change (columns []) with 0%Z; lia|lia]. Qed.
Lemma within_newline W a : (a <= W)%Z -> (0 <= W)%Z -> within W a newline 0.
Proof.
  intros H H0 p N L. unfold newline. rewrite split_lines, (split_no_nl p N). cbn [removelast last app]. 
  assert (E : split_on NL (p ++ [NL]) = [p; []]) by (rewrite split_lines, (split_no_nl p N); cbn [removelast last app]; clear -N; induction p as [|c p IH]; [reflexivity|]; cbn [app split_on]; rewrite (N c (or_introl eq_refl)), IH by (intros x I; apply N; right; exact I); reflexivity).
  rewrite E. cbn [last]. change (columns []) with 0%Z. split; [|lia]. constructor; [lia|]. constructor; [change (columns []) with 0%Z; lia|constructor].
Qed.
Lemma no_nl_spaces n : no_nl (spaces n). Proof. intros c I. unfold spaces in I. apply repeat_spec in I. subst. reflexivity. Qed.
(** moving right *)
Lemma within_indent W a x want : (a <= x)%Z -> (0 <= x <= want)%Z -> (want <= W)%Z -> within W a (snd (indent x want)) want /\ fst (indent x want) = want.
Proof.
  intros H1 H2 H3. unfold indent. destruct (want - x <? 0)%Z eqn:E; [lia|]. destruct (0 <? want - x)%Z eqn:E2; cbn [fst snd app].
  - split; [|reflexivity]. apply within_text; [apply no_nl_spaces|rewrite columns_spaces; lia|lia].
  - split; [apply within_nil; lia|lia].
Qed.

(** ** Pieces *)
Lemma decode_firstn ch p j : snd (decode ch p) <= j -> decode ch (firstn j p) = decode ch p.
Proof.
  revert ch j. induction p as [|c p IH]; intros ch j H; [rewrite firstn_nil; reflexivity|]. cbn [decode] in *. destruct (continuation c) eqn:E.
  - cbn [snd] in H. destruct j as [|j]; [lia|]. cbn [firstn decode]. rewrite E, IH by lia. reflexivity.
  - destruct j as [|j]; [reflexivity|]. cbn [firstn decode]. rewrite E. reflexivity.
Qed.
Lemma one_char_firstn c p j : fst (one_char c p) <= S j -> one_char c (firstn j p) = one_char c p.
Proof. unfold one_char. destruct (0xC1 <? code c)%N; [|reflexivity]. cbn [fst]. intro H. rewrite decode_firstn by lia. reflexivity. Qed.

Lemma fit_columns fuel : forall width p u, (0 <= u <= width)%Z -> (u + columns (firstn (fit fuel width p u) p) <= width)%Z.
Proof.
  induction fuel as [|f IH]; intros width p u H; [cbn [fit firstn]; change (columns []) with 0%Z; lia|]. destruct p as [|c p]; [cbn [fit firstn]; change (columns []) with 0%Z; lia|]. cbn [fit].
  destruct (u <? width)%Z eqn:E; [|cbn [firstn]; change (columns []) with 0%Z; lia]. pose proof (one_char_le c p) as Lr. pose proof (one_char_cols c p) as Cr. set (r := one_char c p) in *.
  destruct ((snd r =? 2) && (width <? u + 2)%Z)%bool eqn:K; [cbn [firstn]; change (columns []) with 0%Z; lia|].
  specialize (IH width (skipn (fst r) (c :: p)) (u + Z.of_nat (snd r))%Z ltac:(lia)).
  set (m := fit f width (skipn (fst r) (c :: p)) (u + Z.of_nat (snd r))%Z) in *.
  assert (Sp : firstn (fst r + m) (c :: p) = firstn (fst r) (c :: p) ++ firstn m (skipn (fst r) (c :: p))).
  { rewrite <- (firstn_skipn (fst r) (c :: p)) at 1. rewrite firstn_app, firstn_length, Nat.min_l by (cbn; lia). rewrite firstn_all2 by (rewrite firstn_length; lia). f_equal. f_equal. lia. }
  rewrite Sp. pose proof (columns_app (firstn (fst r) (c :: p)) (firstn m (skipn (fst r) (c :: p)))) as A.
  assert (One : columns (firstn (fst r) (c :: p)) = Z.of_nat (snd r)).
  { destruct (fst r) as [|n] eqn:Er; [lia|]. cbn [firstn]. unfold columns. cbn [columns_after]. rewrite one_char_firstn by (fold r; lia). fold r. rewrite Er. replace (S n - 1) with n by lia. rewrite columns_skip by (rewrite firstn_length; lia). rewrite skipn_all2 by (rewrite firstn_length; lia). change (cols []) with 0. lia. }
  lia.
Qed.
Lemma fit_all fuel : forall width p u, length p <= fuel -> (u + columns p <= width)%Z -> fit fuel width p u = length p.
Proof.
  induction fuel as [|f IH]; intros width p u L H; [cbn [fit]; destruct p; [reflexivity|cbn in L; lia]|]. destruct p as [|c p]; [reflexivity|]. cbn [fit]. unfold columns in H. rewrite cols_cons in H. pose proof (one_char_le c p) as Lr. pose proof (one_char_cols c p) as Cr. set (r := one_char c p) in *.
  destruct (u <? width)%Z eqn:E; [|lia]. destruct ((snd r =? 2) && (width <? u + 2)%Z)%bool eqn:K; [lia|]. rewrite IH; [rewrite skipn_length; cbn [length]; lia|rewrite skipn_length; cbn [length] in *; lia|unfold columns; lia].
Qed.

Lemma space_prefix i n p : i <= n -> n <= length p -> i < length p -> nth i p NUL = " "%char -> (columns (firstn i p) <= columns (firstn n p))%Z.
Proof.
  intros L Ln Li H. destruct (Nat.eq_dec i n) as [->|N]; [lia|]. assert (E : firstn n p = firstn i p ++ " "%char :: firstn (n - S i) (skipn (S i) p)).
  { rewrite (cut_at i p " ") at 1 by assumption. rewrite firstn_app, firstn_length, Nat.min_l by lia. rewrite firstn_all2 by (rewrite firstn_length; lia). f_equal. replace (n - i) with (S (n - S i)) by lia. reflexivity. }
  rewrite E. unfold columns. rewrite (cols_app_eq (length (firstn i p))) by (lia || reflexivity). lia.
Qed.

Lemma pieces_width fuel : forall width p, (2 <= width)%Z -> no_nl p -> Forall (fun t => columns t <= width /\ no_nl t)%Z (pieces_loop fuel width p).
Proof.
  induction fuel as [|f IH]; intros width p H N; [constructor|]. cbn [pieces_loop]. destruct p as [|c p]; [constructor|]. remember (c :: p) as data eqn:Ep.
  assert (Hf : forall k, no_nl (firstn k data)) by (intros k x I; apply N; rewrite <- (firstn_skipn k data); apply in_or_app; left; exact I).
  assert (Hs : forall k, no_nl (skipn k data)) by (intros k x I; apply N; rewrite <- (firstn_skipn k data); apply in_or_app; right; exact I).
  destruct (Z.of_nat (length data) <=? width)%Z eqn:E.
  - constructor; [|constructor]. split; [|exact N]. unfold columns. pose proof (cols_le (length data) data (le_n _)). lia.
  - pose proof (fit_columns (length data) width data 0 ltac:(lia)) as C. pose proof (fit_le (length data) width data 0) as M. destruct (fit (length data) width data 0 =? length data) eqn:F.
    + apply Nat.eqb_eq in F. rewrite F, firstn_all in C. constructor; [|constructor]. split; [lia|exact N].
    + apply Nat.eqb_neq in F. destruct (last_space (fit (length data) width data 0) data) as [i|] eqn:Q.
      * destruct (last_space_some _ _ _ Q) as (Li & Hi). constructor; [|apply IH; [exact H|apply Hs]]. split; [|apply Hf]. pose proof (space_prefix i _ data Li M ltac:(lia) Hi). lia.
      * constructor; [|apply IH; [exact H|apply Hs]]. split; [lia|apply Hf].
Qed.
Lemma pieces_whole width p : p <> [] -> (columns p <= width)%Z -> pieces width p = [p].
Proof. intros N H. unfold pieces. cbn [pieces_loop]. destruct p as [|c p]; [contradiction|]. destruct (Z.of_nat _ <=? width)%Z; [reflexivity|]. rewrite fit_all by lia. rewrite Nat.eqb_refl. reflexivity. Qed.

(** ** The wrapper stays within its lines *)
Section Wrapper.
  Variable W : Z.
  Definition piece_ok (width : Z) (t : str) : Prop := (columns t <= width)%Z /\ no_nl t.
  Definition wide_ok (w : wrapper) : Prop := ring w /\ (0 <= wx w)%Z /\ (2 <= wwidth w)%Z /\ (wx w + wwidth w <= W)%Z /\ Forall (piece_ok (wwidth w)) (queue w).
  Definition cur (w : wrapper) : Z := if wrote w then W else wx w.

  Lemma lead_within w : wide_ok w -> within W (cur w) (lead w) (wx w).
  Proof.
    intros (R & X & H & L & Q). unfold lead, cur. destruct (wrote w); [|apply within_nil; lia].
    apply (within_app _ _ _ 0); [apply within_newline; lia|]. apply (within_indent W 0 0 (wx w)); lia.
  Qed.
  Lemma piece_within w t : wide_ok w -> piece_ok (wwidth w) t -> within W (cur w) (lead w ++ t) W.
  Proof. intros K (P1 & P2). apply (within_app _ _ _ (wx w)); [apply lead_within; exact K|]. destruct K as (R & X & H & L & Q). apply within_text; [exact P2|lia|lia]. Qed.
  Lemma popped_ok w : wide_ok w -> piece_ok (wwidth w) (popped w).
  Proof. intros (R & X & H & L & Q). unfold popped. destruct (queue w) as [|t q]; [split; [change (columns []) with 0%Z; lia|intros c []]|]. inversion Q. assumption. Qed.

  Lemma outputs_within ps : forall w, wide_ok w -> Forall (piece_ok (wwidth w)) ps -> wide_ok (fst (outputs w ps)) /\ wx (fst (outputs w ps)) = wx w /\ wwidth (fst (outputs w ps)) = wwidth w /\ within W (cur w) (snd (outputs w ps)) (cur (fst (outputs w ps))).
  Proof.
    induction ps as [|p ps IH]; intros w K F; cbn [outputs fst snd].
    - split; [exact K|]. split; [reflexivity|]. split; [reflexivity|]. apply within_nil. unfold cur. destruct K as (R & X & H & L & Q). destruct (wrote w); lia.
    - inversion F as [|? ? Hp Hps]; subst. pose proof K as (R & X & H & L & Q). destruct (output_eq w p R) as (w' & x & E & R' & X' & W' & D). rewrite E. cbn [fst snd].
      assert (K' : wide_ok w' /\ within W (cur w) x (cur w')).
      { destruct D as [(-> & Q' & O')|(t & q & Eq & -> & Q' & O')].
        - split; [|apply within_nil; unfold cur; rewrite O', X'; destruct (wrote w); lia]. split; [exact R'|]. rewrite X', W', Q'. split; [exact X|]. split; [exact H|]. split; [exact L|]. apply Forall_app. split; [exact Q|]. constructor; [exact Hp|constructor].
        - rewrite Eq in Q. inversion Q as [|? ? Ht Hq]; subst. split; [|unfold cur at 2; rewrite O'; apply piece_within; [exact K|exact Ht]]. split; [exact R'|]. rewrite X', W', Q'. split; [exact X|]. split; [exact H|]. split; [exact L|]. apply Forall_app. split; [exact Hq|]. constructor; [exact Hp|constructor]. }
      destruct K' as (K' & In). destruct (IH w' K') as (K2 & X2 & W2 & I2); [rewrite W'; exact Hps|]. split; [exact K2|]. split; [congruence|]. split; [congruence|]. apply (within_app _ _ _ (cur w')); assumption.
  Qed.

  Lemma write_one_within w : wide_ok w -> wide_ok (fst (write_one_line w)) /\ wx (fst (write_one_line w)) = wx w /\ wwidth (fst (write_one_line w)) = wwidth w /\ within W (cur w) (snd (write_one_line w)) W /\ cur (fst (write_one_line w)) = W /\ queue (fst (write_one_line w)) = tl (queue w).
  Proof.
    intro K. pose proof K as (R & X & H & L & Q). destruct (write_one_eq w R) as (w2 & E & R2 & Q2 & X2 & W2 & O2). rewrite E. cbn [fst snd]. split; [split; [exact R2|]; rewrite X2, W2, Q2; split; [exact X|]; split; [exact H|]; split; [exact L|]; destruct (queue w); [constructor|]; cbn [tl]; inversion Q; assumption|]. split; [exact X2|]. split; [exact W2|]. split; [apply piece_within; [exact K|apply popped_ok; exact K]|]. split; [unfold cur; rewrite O2; reflexivity|exact Q2].
  Qed.

  Lemma process_within w data : wide_ok w -> no_nl data -> exists w' x, process w data = Ret (w', x) /\ wide_ok w' /\ wx w' = wx w /\ wwidth w' = wwidth w /\ within W (wx w) x W.
  Proof.
    intros K N. pose proof K as (R & X & H & L & Q). rewrite process_eq by exact H. unfold finished.
    destruct (outputs_within (pieces (wwidth w) data) (set_wrote w false) K) as (K1 & X1 & W1 & I1); [apply pieces_width; [exact H|exact N]|]. destruct (outputs (set_wrote w false) (pieces (wwidth w) data)) as (w1 & x1). cbn [fst snd] in *. change (cur (set_wrote w false)) with (wx w) in I1.
    unfold cur in I1. destruct (wrote w1) eqn:O.
    - exists w1, x1. split; [reflexivity|]. split; [exact K1|]. split; [exact X1|]. split; [exact W1|exact I1].
    - destruct (write_one_within w1 K1) as (K2 & X2 & W2 & I2 & _). eexists. eexists. split; [reflexivity|]. split; [exact K2|]. split; [rewrite X2; exact X1|]. split; [rewrite W2; exact W1|]. apply (within_app _ _ _ (cur w1)); [unfold cur; rewrite O; exact I1|exact I2].
  Qed.

  Lemma flush_loop_within fuel : forall w, wide_ok w -> length (queue w) < fuel -> wide_ok (fst (flush_loop fuel w)) /\ wx (fst (flush_loop fuel w)) = wx w /\ wwidth (fst (flush_loop fuel w)) = wwidth w /\ within W (cur w) (snd (flush_loop fuel w)) W /\ queue (fst (flush_loop fuel w)) = [].
  Proof.
    induction fuel as [|f IH]; intros w K Lq; [lia|]. pose proof K as (R & X & H & L & Q). cbn [flush_loop]. destruct (buf_empty w) eqn:E; cbn [fst snd].
    - apply (empty_eq w R) in E. split; [exact K|]. split; [reflexivity|]. split; [reflexivity|]. split; [apply within_nil; unfold cur; destruct (wrote w); lia|exact E].
    - assert (Nq : queue w <> []) by (intro Q0; apply (empty_eq w R) in Q0; congruence). destruct (write_one_within w K) as (K1 & X1 & W1 & I1 & C1 & Q1). destruct (IH (fst (write_one_line w)) K1) as (K2 & X2 & W2 & I2 & Q2); [rewrite Q1; destruct (queue w); [contradiction|cbn in *; lia]|].
      split; [exact K2|]. split; [congruence|]. split; [congruence|]. split; [|exact Q2]. apply (within_app _ _ _ W); [exact I1|]. rewrite C1 in I2. exact I2.
  Qed.
  Lemma flush_within w : wide_ok w -> wide_ok (fst (flush w)) /\ wx (fst (flush w)) = wx w /\ wwidth (fst (flush w)) = wwidth w /\ within W 0 (snd (flush w)) 0 /\ queue (fst (flush w)) = [].
  Proof.
    intro K. pose proof K as (R & X & H & L & Q). unfold flush. destruct (buf_empty w) eqn:E; cbn [fst snd].
    - apply (empty_eq w R) in E. split; [exact K|]. split; [reflexivity|]. split; [reflexivity|]. split; [apply within_nil; lia|exact E].
    - destruct (flush_loop_within 16 (set_wrote w false) K) as (K2 & X2 & W2 & I2 & Q2); [rewrite set_wrote_queue, queue_length; apply count_lt|]. split; [exact K2|]. split; [exact X2|]. split; [exact W2|]. split; [|exact Q2].
      apply (within_app _ _ _ (wx w)); [apply within_indent; lia|]. apply (within_app _ _ _ W); [exact I2|]. apply within_newline; lia.
  Qed.
End Wrapper.
