(** Proofs on LineWrapper, for C122-C126. *)
From Verif Require Import Usage_model Usage_spec UsageIter_proofs.
From Coq Require Import Lia ZifyBool ZifyNat ZifyN.
Local Open Scope nat_scope.

(** ** The ring buffer is a queue of at most 15 texts *)
Definition ring (w : wrapper) : Prop := length (slots w) = 16 /\ head w < 16 /\ tail w < 16.
Definition count_ (w : wrapper) : nat := (head w + 15 - tail w) mod 16.
Definition queue (w : wrapper) : list str := map (fun k => nth ((tail w + 1 + k) mod 16) (slots w) []) (seq 0 (count_ w)).

Lemma mod16 a : exists q, a = 16 * q + a mod 16 /\ a mod 16 < 16.
Proof. exists (a / 16). split; [apply Nat.div_mod; lia|apply Nat.mod_upper_bound; lia]. Qed.
Ltac mods := repeat match goal with |- context [?a mod 16] => let q := fresh "q" in let E := fresh "E" in let L := fresh "L" in let r := fresh "r" in destruct (mod16 a) as (q & E & L); set (r := a mod 16) in *; clearbody r
  | H : context [?a mod 16] |- _ => let q := fresh "q" in let E := fresh "E" in let L := fresh "L" in let r := fresh "r" in destruct (mod16 a) as (q & E & L); set (r := a mod 16) in *; clearbody r end.

Lemma count_lt w : count_ w < 16. Proof. unfold count_. mods. lia. Qed.
Lemma queue_length w : length (queue w) = count_ w. Proof. unfold queue. rewrite map_length, seq_length. reflexivity. Qed.
Lemma empty_eq w : ring w -> buf_empty w = true <-> queue w = [].
Proof.
  intros (_ & H & T). split; intro E.
  - assert (L : count_ w = 0) by (unfold buf_empty, band15, count_ in *; apply Nat.eqb_eq in E; mods; lia). unfold queue. rewrite L. reflexivity.
  - assert (L : count_ w = 0) by (rewrite <- queue_length, E; reflexivity). unfold buf_empty, band15, count_ in *. apply Nat.eqb_eq. mods. lia.
Qed.
Lemma full_eq w : ring w -> buf_full w = true <-> length (queue w) = 15.
Proof. intros (_ & H & T). rewrite queue_length. unfold buf_full, count_. rewrite Nat.eqb_eq. split; intro E; mods; lia. Qed.

Lemma set_slot_nth l n t k : n < length l -> nth k (set_slot l n t) [] = if k =? n then t else nth k l [].
Proof.
  intro H. unfold set_slot. destruct (Nat.eqb_spec k n) as [->|N].
  - rewrite app_nth2 by (rewrite firstn_length; lia). rewrite firstn_length. replace (n - Nat.min n (length l)) with 0 by lia. reflexivity.
  - destruct (Nat.lt_ge_cases k n) as [L|G].
    + rewrite app_nth1 by (rewrite firstn_length; lia). rewrite <- (firstn_skipn n l) at 2. rewrite app_nth1 by (rewrite firstn_length; lia). reflexivity.
    + rewrite app_nth2 by (rewrite firstn_length; lia). rewrite firstn_length. replace (k - Nat.min n (length l)) with (S (k - S n)) by lia. cbn [nth].
      rewrite <- (firstn_skipn (S n) l) at 2. rewrite app_nth2 by (rewrite firstn_length; lia). rewrite firstn_length. f_equal. lia.
Qed.
Lemma set_slot_length l n t : n < length l -> length (set_slot l n t) = length l.
Proof. intro H. unfold set_slot. rewrite app_length, firstn_length. cbn [length]. rewrite skipn_length. lia. Qed.

Lemma store_ring w t : ring w -> ring (buf_store w t).
Proof. intros (L & H & T). unfold ring, buf_store, band15. cbn [slots head tail]. rewrite set_slot_length by lia. split; [exact L|]. split; [mods; lia|exact T]. Qed.
Lemma store_queue w t : ring w -> length (queue w) < 15 -> queue (buf_store w t) = queue w ++ [t].
Proof.
  intros (L & H & T) Q. rewrite queue_length in Q. unfold queue.
  assert (C : count_ (buf_store w t) = S (count_ w)) by (unfold count_, buf_store, band15 in *; cbn [head tail]; mods; lia).
  rewrite C, seq_S, map_app. cbn [plus]. f_equal.
  - apply map_ext_in. intros k I. apply in_seq in I. unfold buf_store. cbn [slots tail]. rewrite set_slot_nth by lia. destruct (Nat.eqb_spec ((tail w + 1 + k) mod 16) (head w)) as [E|_]; [|reflexivity]. exfalso. unfold count_ in *. mods. lia.
  - cbn [map]. f_equal. unfold buf_store. cbn [slots tail]. rewrite set_slot_nth by lia. destruct (Nat.eqb_spec ((tail w + 1 + count_ w) mod 16) (head w)) as [_|E]; [reflexivity|]. exfalso. unfold count_ in *. mods. lia.
Qed.
Lemma next_ring w : ring w -> ring (buf_next w).
Proof. intros (L & H & T). unfold ring, buf_next, band15. cbn [slots head tail]. split; [exact L|]. split; [exact H|mods; lia]. Qed.
Lemma next_queue w : ring w -> queue w <> [] -> queue w = nth (tail (buf_next w)) (slots w) [] :: queue (buf_next w).
Proof.
  intros (L & H & T) N. assert (Q : count_ w <> 0) by (intro E; apply N; unfold queue; rewrite E; reflexivity).
  assert (C : count_ w = S (count_ (buf_next w))) by (unfold count_, buf_next, band15 in *; cbn [head tail]; mods; lia).
  unfold queue. rewrite C. cbn [seq map]. rewrite Nat.add_0_r. f_equal. rewrite <- seq_shift, map_map. apply map_ext. intro k. unfold buf_next, band15. cbn [slots tail]. f_equal. mods. lia.
Qed.
Lemma set_wrote_ring w b : ring w -> ring (set_wrote w b). Proof. exact (fun h => h). Qed.
Lemma set_wrote_queue w b : queue (set_wrote w b) = queue w. Proof. reflexivity. Qed.
Lemma new_ring a b : ring (wrapper_new a b). Proof. unfold ring. cbn. lia. Qed.
Lemma new_queue a b : queue (wrapper_new a b) = []. Proof. reflexivity. Qed.

(** ** One step of the wrapper, on the queue *)
Definition lead (w : wrapper) : str := if wrote w then newline ++ snd (indent 0 (wx w)) else [].
Definition popped (w : wrapper) : str := match queue w with [] => [] | t :: _ => t end.

Lemma write_one_eq w : ring w -> exists w', write_one_line w = (w', lead w ++ popped w) /\ ring w' /\ queue w' = tl (queue w) /\ wx w' = wx w /\ wwidth w' = wwidth w /\ wrote w' = true.
Proof.
  intro R. unfold write_one_line, popped. fold (lead w). destruct (buf_empty w) eqn:E.
  - apply (empty_eq w R) in E. rewrite E, app_nil_r. eexists. split; [reflexivity|]. split; [exact R|]. cbn [tl]. split; [exact E|]. split; [reflexivity|]. split; reflexivity.
  - assert (N : queue w <> []) by (intro Q; apply (empty_eq w R) in Q; congruence). eexists. split; [rewrite (next_queue w R N); cbn [buf_next slots]; reflexivity|]. split; [exact (next_ring w R)|]. rewrite (next_queue w R N). cbn [tl]. split; [reflexivity|]. split; [reflexivity|]. split; reflexivity.
Qed.

Lemma output_eq w t : ring w -> exists w' x, output w t = (w', x) /\ ring w' /\ wx w' = wx w /\ wwidth w' = wwidth w /\
  (x = [] /\ queue w' = queue w ++ [t] /\ wrote w' = wrote w \/ exists p q, queue w = p :: q /\ x = lead w ++ p /\ queue w' = q ++ [t] /\ wrote w' = true).
Proof.
  intro R. unfold output. destruct (buf_full w) eqn:E.
  - apply (full_eq w R) in E. destruct (write_one_eq w R) as (w' & Ew & R' & Q' & X' & W' & O'). rewrite Ew. cbn [fst snd]. eexists. eexists. split; [reflexivity|]. split; [exact (store_ring w' t R')|]. split; [exact X'|]. split; [exact W'|]. right. unfold popped. destruct (queue w) as [|p q] eqn:Q; [discriminate|]. exists p, q. split; [reflexivity|]. split; [reflexivity|]. split; [rewrite store_queue; [rewrite Q'; reflexivity|exact R'|rewrite Q'; cbn in *; lia]|exact O'].
  - assert (L : length (queue w) < 15). { assert (length (queue w) <> 15) by (intro K; apply (full_eq w R) in K; congruence). pose proof (queue_length w). pose proof (count_lt w). lia. }
    eexists. eexists. split; [reflexivity|]. split; [exact (store_ring w t R)|]. split; [reflexivity|]. split; [reflexivity|]. left. split; [reflexivity|]. split; [exact (store_queue w t R L)|reflexivity].
Qed.

(** ** The pieces a text is cut into *)
Fixpoint pieces_loop (fuel : nat) (width : Z) (data : str) : list str :=
  match fuel with
  | O => []
  | S fuel =>
    match data with
    | [] => []
    | _ => if (Z.of_nat (length data) <=? width)%Z then [data]
           else let maxi := fit (length data) width data 0 in
                if maxi =? length data then [data]
                else match last_space maxi data with
                     | Some i => firstn i data :: pieces_loop fuel width (skipn (S i) data)
                     | None => firstn maxi data :: pieces_loop fuel width (skipn maxi data)
                     end
    end
  end.
Definition pieces (width : Z) (data : str) : list str := pieces_loop (S (length data)) width data.

Fixpoint outputs (w : wrapper) (ps : list str) : wrapper * str :=
  match ps with [] => (w, []) | p :: ps => let r := output w p in let q := outputs (fst r) ps in (fst q, snd r ++ snd q) end.

Lemma output_width w t : wwidth (fst (output w t)) = wwidth w.
Proof. unfold output, write_one_line. destruct (buf_full w); [|reflexivity]. destruct (buf_empty w); reflexivity. Qed.

Lemma fit_pos width c p : (2 <= width)%Z -> 1 <= fit (length (c :: p)) width (c :: p) 0.
Proof.
  intro H. cbn [length fit]. destruct (0 <? width)%Z eqn:E; [|lia]. destruct ((snd (one_char c p) =? 2) && (width <? 0 + 2)%Z)%bool eqn:K; [lia|].
  pose proof (proj1 (one_char_le c p)). lia.
Qed.

Lemma fit_le fuel : forall width p u, fit fuel width p u <= length p.
Proof.
  induction fuel as [|f IH]; intros width p u; [cbn; lia|]. destruct p as [|c p]; [cbn; lia|]. cbn [fit]. destruct (u <? width)%Z; [|lia].
  destruct ((snd (one_char c p) =? 2) && (width <? u + 2)%Z)%bool; [lia|]. specialize (IH width (skipn (fst (one_char c p)) (c :: p)) (u + Z.of_nat (snd (one_char c p)))%Z). rewrite skipn_length in IH. pose proof (one_char_le c p). cbn [length] in *. lia.
Qed.
Lemma last_space_some n p i : last_space n p = Some i -> i <= n /\ nth i p NUL = " "%char.
Proof.
  revert i. induction n as [|n IH]; intros i H; cbn [last_space] in H; (destruct (Ascii.eqb (nth _ p NUL) " ") eqn:E in H; [injection H as <-; split; [lia|apply Ascii.eqb_eq; exact E]|]); [discriminate|]. destruct (IH i H). split; [lia|assumption].
Qed.
Lemma cut_at i p (c : ascii) : i < length p -> nth i p NUL = c -> p = firstn i p ++ c :: skipn (S i) p.
Proof. revert p. induction i as [|i IH]; intros [|x p] L H; cbn [length] in L; try lia; [cbn in H; subst; reflexivity|]. cbn [firstn skipn app nth] in *. f_equal. apply IH; [lia|exact H]. Qed.

Lemma process_loop_eq fuel : forall w data, (2 <= wwidth w)%Z -> length data < fuel -> process_loop fuel w data = Ret (outputs w (pieces_loop fuel (wwidth w) data)).
Proof.
  induction fuel as [|f IH]; intros w data H L; [lia|]. cbn [process_loop pieces_loop]. destruct data as [|c data]; [reflexivity|]. remember (c :: data) as p eqn:Ep.
  assert (M : 1 <= fit (length p) (wwidth w) p 0) by (rewrite Ep; apply fit_pos; exact H). pose proof (fit_le (length p) (wwidth w) p 0) as M2.
  assert (One : forall t, output w t = outputs w [t]) by (intro t; cbn [outputs fst snd]; destruct (output w t); cbn; rewrite app_nil_r; reflexivity).
  destruct (Z.of_nat (length p) <=? wwidth w)%Z; [rewrite One; reflexivity|]. destruct (fit (length p) (wwidth w) p 0 =? length p) eqn:E; [rewrite One; reflexivity|]. apply Nat.eqb_neq in E.
  assert (Lp : length p = S (length data)) by (rewrite Ep; reflexivity).
  destruct (last_space (fit (length p) (wwidth w) p 0) p) as [i|].
  - cbn [outputs]. rewrite IH; [|rewrite output_width; exact H|rewrite skipn_length; lia]. cbn [obind]. rewrite output_width. reflexivity.
  - cbn [outputs]. rewrite IH; [|rewrite output_width; exact H|rewrite skipn_length; lia]. cbn [obind]. rewrite output_width. reflexivity.
Qed.

Definition finished (r : wrapper * str) : wrapper * str := if wrote (fst r) then r else let q := write_one_line (fst r) in (fst q, snd r ++ snd q).
Lemma process_eq w data : (2 <= wwidth w)%Z -> process w data = Ret (finished (outputs (set_wrote w false) (pieces (wwidth w) data))).
Proof. intro H. unfold process. rewrite process_loop_eq by (cbn; lia || exact H). cbn [obind]. unfold finished, pieces. cbn [wwidth set_wrote]. destruct (wrote _); reflexivity. Qed.

(** ** Characters are neither lost, added nor reordered *)
Lemma ink_app a b : ink (a ++ b) = ink a ++ ink b. Proof. apply filter_app. Qed.
Lemma ink_spaces n : ink (spaces n) = []. Proof. unfold spaces. induction (Z.to_nat n); [reflexivity|exact IHn0]. Qed.
Lemma ink_indent a b : ink (snd (indent a b)) = [].
Proof. unfold indent. destruct (0 <? (if b - a <? 0 then b else b - a))%Z; cbn [snd]; [rewrite ink_app, ink_spaces|]; destruct (b - a <? 0)%Z; reflexivity. Qed.
Lemma ink_lead w : ink (lead w) = []. Proof. unfold lead. destruct (wrote w); [|reflexivity]. rewrite ink_app, ink_indent. reflexivity. Qed.

Definition waiting (w : wrapper) : str := ink (concat (queue w)).

Lemma outputs_ink ps : forall w, ring w -> let r := outputs w ps in ring (fst r) /\ wx (fst r) = wx w /\ wwidth (fst r) = wwidth w /\ ink (snd r) ++ waiting (fst r) = waiting w ++ ink (concat ps).
Proof.
  induction ps as [|p ps IH]; intros w R; cbn [outputs]; cbn zeta; [cbn [fst snd concat ink filter app]; rewrite app_nil_r; auto|].
  destruct (output_eq w p R) as (w' & x & E & R' & X' & W' & D). rewrite E. cbn [fst snd]. specialize (IH w' R'). cbn zeta in IH. destruct (outputs w' ps) as (w2 & y). cbn [fst snd] in *. destruct IH as (R2 & X2 & W2 & I2).
  split; [exact R2|]. split; [congruence|]. split; [congruence|]. rewrite ink_app, <- app_assoc, I2. unfold waiting. cbn [concat]. rewrite ink_app.
  destruct D as [(-> & -> & _)|(t & q & -> & -> & -> & _)].
  - cbn [ink filter app]. rewrite concat_app. cbn [concat]. rewrite app_nil_r, ink_app, <- app_assoc. reflexivity.
  - rewrite ink_app, ink_lead. cbn [app concat]. rewrite concat_app. cbn [concat]. rewrite app_nil_r, !ink_app, <- !app_assoc. reflexivity.
Qed.

Lemma pieces_ink fuel : forall width p, (2 <= width)%Z -> length p < fuel -> ink (concat (pieces_loop fuel width p)) = ink p.
Proof.
  induction fuel as [|f IH]; intros width p H L; [lia|]. cbn [pieces_loop]. destruct p as [|c p]; [reflexivity|]. remember (c :: p) as data eqn:Ep.
  assert (M : 1 <= fit (length data) width data 0) by (rewrite Ep; apply fit_pos; exact H). pose proof (fit_le (length data) width data 0) as M2.
  assert (O : ink (concat [data]) = ink data) by (cbn [concat]; rewrite app_nil_r; reflexivity).
  destruct (Z.of_nat (length data) <=? width)%Z; [exact O|]. destruct (fit (length data) width data 0 =? length data) eqn:E; [exact O|]. apply Nat.eqb_neq in E.
  assert (Ld : length data = S (length p)) by (rewrite Ep; reflexivity).
  destruct (last_space (fit (length data) width data 0) data) as [i|] eqn:Q.
  - destruct (last_space_some _ _ _ Q) as (Li & Hi). cbn [concat]. rewrite ink_app, IH by (rewrite ?skipn_length; lia). rewrite (cut_at i data " ") at 3 by (lia || exact Hi). rewrite ink_app. reflexivity.
  - cbn [concat]. rewrite ink_app, IH by (rewrite ?skipn_length; lia). rewrite <- ink_app, firstn_skipn. reflexivity.
Qed.

Lemma process_ink w data : ring w -> (2 <= wwidth w)%Z -> exists w' x, process w data = Ret (w', x) /\ ring w' /\ wx w' = wx w /\ wwidth w' = wwidth w /\ ink x ++ waiting w' = waiting w ++ ink data.
Proof.
  intros R H. rewrite process_eq by exact H. pose proof (outputs_ink (pieces (wwidth w) data) (set_wrote w false) R) as K. cbn zeta in K. unfold finished. destruct (outputs _ _) as (w1 & x1). cbn [fst snd] in *. destruct K as (R1 & X1 & W1 & I1).
  assert (I2 : ink x1 ++ waiting w1 = waiting w ++ ink data) by (rewrite I1; unfold pieces; rewrite pieces_ink by lia; reflexivity).
  destruct (wrote w1).
  - exists w1, x1. split; [reflexivity|]. split; [exact R1|]. split; [exact X1|]. split; [exact W1|exact I2].
  - destruct (write_one_eq w1 R1) as (w2 & E & R2 & Q2 & X2 & W2 & _). rewrite E. cbn [fst snd]. eexists. eexists. split; [reflexivity|]. split; [exact R2|]. split; [exact (eq_trans X2 X1)|]. split; [exact (eq_trans W2 W1)|].
    rewrite !ink_app, ink_lead. cbn [app]. rewrite <- I2, <- app_assoc. f_equal. unfold waiting, popped. rewrite Q2. destruct (queue w1) as [|t q]; [reflexivity|]. cbn [tl concat]. rewrite ink_app. reflexivity.
Qed.

Lemma flush_loop_ink fuel : forall w, ring w -> length (queue w) < fuel -> let r := flush_loop fuel w in ring (fst r) /\ wx (fst r) = wx w /\ wwidth (fst r) = wwidth w /\ queue (fst r) = [] /\ ink (snd r) = waiting w.
Proof.
  induction fuel as [|f IH]; intros w R L; [lia|]. cbn [flush_loop]. cbn zeta. destruct (buf_empty w) eqn:E.
  - apply (empty_eq w R) in E. cbn [fst snd]. unfold waiting. rewrite E. auto.
  - assert (N : queue w <> []) by (intro Q; apply (empty_eq w R) in Q; congruence). destruct (write_one_eq w R) as (w1 & E1 & R1 & Q1 & X1 & W1 & _). rewrite E1. cbn [fst snd].
    destruct (queue w) as [|t q] eqn:Q; [contradiction|]. cbn [tl length] in *. specialize (IH w1 R1 ltac:(rewrite Q1; lia)). cbn zeta in IH. destruct IH as (R2 & X2 & W2 & Q2 & I2).
    split; [exact R2|]. split; [congruence|]. split; [congruence|]. split; [exact Q2|]. rewrite !ink_app, ink_lead, I2. unfold waiting, popped. rewrite Q, Q1. cbn [app concat]. rewrite ink_app. reflexivity.
Qed.
Lemma flush_ink w : ring w -> let r := flush w in ring (fst r) /\ wx (fst r) = wx w /\ wwidth (fst r) = wwidth w /\ queue (fst r) = [] /\ ink (snd r) = waiting w.
Proof.
  intro R. unfold flush. cbn zeta. destruct (buf_empty w) eqn:E; [apply (empty_eq w R) in E; unfold waiting; rewrite E; cbn [fst snd]; auto|].
  destruct (flush_loop_ink 16 (set_wrote w false) R) as (R2 & X2 & W2 & Q2 & I2); [rewrite set_wrote_queue, queue_length; apply count_lt|]. cbn [fst snd]. 
  split; [exact R2|]. split; [exact X2|]. split; [exact W2|]. split; [exact Q2|]. rewrite !ink_app, ink_indent, I2. cbn [app]. rewrite app_nil_r. reflexivity.
Qed.
