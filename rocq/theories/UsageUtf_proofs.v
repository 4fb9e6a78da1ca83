(** Texts in UTF-8 on the screen. *)
From Verif Require Import Usage_spec UsageIter_proofs UsageWidth_proofs.
From Coq Require Import ZifyBool ZifyNat ZifyN.
Local Open Scope N_scope.

Lemma below_all (P : N -> bool) k : forallb (fun i => P (N.of_nat i)) (seq 0 k) = true -> forall n, n < N.of_nat k -> P n = true.
Proof. intros H n L. rewrite forallb_forall in H. rewrite <- (N2Nat.id n). apply H. apply in_seq. lia. Qed.

Lemma cont_byte x : x < 64 -> continuation (ascii_of_N (0x80 + x)) = true /\ N.lxor (0x80 + x) 0x80 = x /\ code (ascii_of_N (0x80 + x)) = 0x80 + x.
Proof.
  intro L. assert (H : (continuation (ascii_of_N (0x80 + x)) && (N.lxor (0x80 + x) 0x80 =? x) && (code (ascii_of_N (0x80 + x)) =? 0x80 + x)) = true).
  { revert x L. apply (below_all (fun x => continuation (ascii_of_N (0x80 + x)) && (N.lxor (0x80 + x) 0x80 =? x) && (code (ascii_of_N (0x80 + x)) =? 0x80 + x)) 64). vm_compute. reflexivity. }
  rewrite !andb_true_iff in H. destruct H as [[A B] C]. apply N.eqb_eq in B, C. auto.
Qed.

Lemma low_bits a x : x < 64 -> N.lxor (N.shiftl a 6) x = a * 64 + x.
Proof.
  intro L. rewrite N.shiftl_mul_pow2. change (2 ^ 6) with 64. symmetry. rewrite N.add_nocarry_lxor; [reflexivity|].
  apply N.bits_inj_0. intro n. rewrite N.land_spec. destruct (n <? 6) eqn:E.
  - change 64 with (2 ^ 6). rewrite N.mul_pow2_bits_low by lia. reflexivity.
  - replace x with (x mod 2 ^ 6) by (apply N.mod_small; exact L). rewrite N.mod_pow2_bits_high by lia. apply andb_false_r.
Qed.

Lemma decode_step ch x p : ch < 2 ^ 26 -> x < 64 -> decode ch (ascii_of_N (0x80 + x) :: p) = let r := decode (ch * 64 + x) p in (fst r, S (snd r)).
Proof.
  intros L X. cbn [decode]. destruct (cont_byte x X) as (A & B & C). rewrite A, C. rewrite N.lxor_assoc, B.
  rewrite N.mod_small by (rewrite N.shiftl_mul_pow2; change (2 ^ 6) with 64; change (2 ^ 32) with (2 ^ 26 * 64); lia).
  rewrite low_bits by exact X. reflexivity.
Qed.

Lemma ret_inj {A} (a b : A) : Ret a = Ret b -> a = b. Proof. intro H. injection H. auto. Qed.
Definition starts (b : str) : Prop := match b with [] => True | c :: _ => continuation c = false end.
Lemma decode_stop ch b : starts b -> decode ch b = (ch, 0%nat).
Proof. destruct b as [|c b]; [reflexivity|]. intro H. cbn [starts decode] in *. rewrite H. reflexivity. Qed.

Lemma lead2 x : 2 <= x < 32 -> (0xC1 <? code (ascii_of_N (0xC0 + x))) = true /\ N.land (code (ascii_of_N (0xC0 + x))) (mask (code (ascii_of_N (0xC0 + x)))) = x /\ continuation (ascii_of_N (0xC0 + x)) = false.
Proof.
  intro L. pose (P := fun x => (x <? 2) || ((0xC1 <? code (ascii_of_N (0xC0 + x))) && (N.land (code (ascii_of_N (0xC0 + x))) (mask (code (ascii_of_N (0xC0 + x)))) =? x) && negb (continuation (ascii_of_N (0xC0 + x))))).
  assert (H : P x = true) by (apply (below_all P 32); [vm_compute; reflexivity|lia]). unfold P in H. replace (x <? 2) with false in H by lia. cbn [orb] in H. rewrite !andb_true_iff in H. destruct H as [[A B] C]. apply N.eqb_eq in B. apply negb_true_iff in C. auto.
Qed.
Lemma lead3 x : x < 16 -> (0xC1 <? code (ascii_of_N (0xE0 + x))) = true /\ N.land (code (ascii_of_N (0xE0 + x))) (mask (code (ascii_of_N (0xE0 + x)))) = x /\ continuation (ascii_of_N (0xE0 + x)) = false.
Proof.
  intro L. pose (P := fun x => ((0xC1 <? code (ascii_of_N (0xE0 + x))) && (N.land (code (ascii_of_N (0xE0 + x))) (mask (code (ascii_of_N (0xE0 + x)))) =? x) && negb (continuation (ascii_of_N (0xE0 + x))))).
  assert (H : P x = true) by (apply (below_all P 16); [vm_compute; reflexivity|lia]). unfold P in H. rewrite !andb_true_iff in H. destruct H as [[A B] C]. apply N.eqb_eq in B. apply negb_true_iff in C. auto.
Qed.
Lemma lead4 x : x < 8 -> (0xC1 <? code (ascii_of_N (0xF0 + x))) = true /\ N.land (code (ascii_of_N (0xF0 + x))) (mask (code (ascii_of_N (0xF0 + x)))) = x /\ continuation (ascii_of_N (0xF0 + x)) = false.
Proof.
  intro L. pose (P := fun x => ((0xC1 <? code (ascii_of_N (0xF0 + x))) && (N.land (code (ascii_of_N (0xF0 + x))) (mask (code (ascii_of_N (0xF0 + x)))) =? x) && negb (continuation (ascii_of_N (0xF0 + x))))).
  assert (H : P x = true) by (apply (below_all P 8); [vm_compute; reflexivity|lia]). unfold P in H. rewrite !andb_true_iff in H. destruct H as [[A B] C]. apply N.eqb_eq in B. apply negb_true_iff in C. auto.
Qed.
Lemma lead1 x : x < 128 -> (0xC1 <? code (ascii_of_N x)) = false /\ continuation (ascii_of_N x) = false.
Proof.
  intro L. pose (P := fun x => negb (0xC1 <? code (ascii_of_N x)) && negb (continuation (ascii_of_N x))).
  assert (H : P x = true) by (apply (below_all P 128); [vm_compute; reflexivity|lia]). unfold P in H. rewrite andb_true_iff, !negb_true_iff in H. exact H.
Qed.

(** the columns that the code gives to a code point *)
Definition cols_of (n : N) : nat := if (0x1100 <=? n) && is_wide n then 2%nat else 1%nat.
Lemma cols_of_width n : code_point n -> Z.of_nat (cols_of n) = screen_width n.
Proof.
  unfold code_point. intro L. unfold cols_of, screen_width, is_wide, wide_ranges. cbn [existsb fst snd]. rewrite orb_false_r.
  destruct (n =? 0x303F) eqn:E; [apply N.eqb_eq in E; subst n; vm_compute; reflexivity|]. cbn [negb]. rewrite andb_true_r.
  match goal with |- Z.of_nat (if ?a then _ else _) = (if ?b then _ else _) => assert (K : a = b); [|rewrite K; destruct b; reflexivity] end.
  clear E. lia.
Qed.

Lemma decode_three a b c r : a < 2 ^ 20 -> b < 64 -> c < 64 -> starts r -> decode a (ascii_of_N (0x80 + b) :: ascii_of_N (0x80 + c) :: r) = ((a * 64 + b) * 64 + c, 2%nat).
Proof. intros A B C H. change (2 ^ 20) with 1048576 in A. rewrite decode_step by (change (2 ^ 26) with 67108864; lia). rewrite decode_step by (change (2 ^ 26) with 67108864; lia). rewrite decode_stop by exact H. reflexivity. Qed.

Lemma utf8_char n r : code_point n -> starts r -> exists c t, utf8 n = c :: t /\ continuation c = false /\ one_char c (t ++ r) = (length (utf8 n), cols_of n).
Proof.
  unfold code_point. intros L H. unfold utf8. destruct (n <? 0x80) eqn:A.
  - exists (ascii_of_N n), []. split; [reflexivity|]. destruct (lead1 n ltac:(lia)) as [K C]. split; [exact C|]. unfold one_char. rewrite K. unfold cols_of. replace (0x1100 <=? n) with false by lia. reflexivity.
  - destruct (n <? 0x800) eqn:B.
    + cbn [map]. eexists _, _. split; [reflexivity|]. pose proof (N.div_mod n 64 ltac:(lia)) as D. pose proof (N.mod_lt n 64 ltac:(lia)) as M.
      assert (X : 2 <= n / 64 < 32) by lia. destruct (lead2 _ X) as (K & K2 & K3). split; [exact K3|]. unfold one_char. rewrite K, K2. cbn [app].
      rewrite decode_step by (change (2 ^ 26) with 67108864; lia). rewrite decode_stop by exact H. cbn [fst snd]. replace (n / 64 * 64 + n mod 64) with n by lia. reflexivity.
    + destruct (n <? 0x10000) eqn:E.
      * cbn [map]. eexists _, _. split; [reflexivity|]. pose proof (N.div_mod n 64 ltac:(lia)) as D. pose proof (N.mod_lt n 64 ltac:(lia)) as M.
        pose proof (N.div_mod (n / 64) 64 ltac:(lia)) as D2. pose proof (N.mod_lt (n / 64) 64 ltac:(lia)) as M2. replace (n / 4096) with (n / 64 / 64) by (rewrite N.div_div by lia; reflexivity).
        assert (X : n / 64 / 64 < 16) by lia. destruct (lead3 _ X) as (K & K2 & K3). split; [exact K3|]. unfold one_char. rewrite K, K2. cbn [app].
        rewrite decode_three; [|change (2 ^ 20) with 1048576; lia|exact M2|exact M|exact H]. cbn [fst snd]. replace ((n / 64 / 64 * 64 + (n / 64) mod 64) * 64 + n mod 64) with n by lia. reflexivity.
      * cbn [map]. eexists _, _. split; [reflexivity|]. pose proof (N.div_mod n 64 ltac:(lia)) as D. pose proof (N.mod_lt n 64 ltac:(lia)) as M.
        pose proof (N.div_mod (n / 64) 64 ltac:(lia)) as D2. pose proof (N.mod_lt (n / 64) 64 ltac:(lia)) as M2.
        pose proof (N.div_mod (n / 64 / 64) 64 ltac:(lia)) as D3. pose proof (N.mod_lt (n / 64 / 64) 64 ltac:(lia)) as M3.
        replace (n / 4096) with (n / 64 / 64) by (rewrite N.div_div by lia; reflexivity). replace (n / 262144) with (n / 64 / 64 / 64) by (rewrite !N.div_div by lia; reflexivity).
        assert (X : n / 64 / 64 / 64 < 8) by lia. destruct (lead4 _ X) as (K & K2 & K3). split; [exact K3|]. unfold one_char. rewrite K, K2. cbn [app].
        rewrite decode_step by (change (2 ^ 26) with 67108864; lia). rewrite decode_three; [|change (2 ^ 20) with 1048576; lia|exact M2|exact M|exact H]. cbn [fst snd].
        replace (((n / 64 / 64 / 64 * 64 + (n / 64 / 64) mod 64) * 64 + (n / 64) mod 64) * 64 + n mod 64) with n by lia. reflexivity.
Qed.
Lemma utf8_starts l : Forall code_point l -> starts (flat_map utf8 l).
Proof. intros [|n l' H _]; [exact I|]. destruct (utf8_char n [] H I) as (c & t & E & C & _). cbn [flat_map]. rewrite E. exact C. Qed.

Lemma cols_utf8 l : Forall code_point l -> columns (flat_map utf8 l) = fold_right Z.add 0%Z (map screen_width l).
Proof.
  induction 1 as [|n l H F IH]; [reflexivity|]. cbn [flat_map map fold_right]. rewrite <- IH, <- (cols_of_width n H). unfold columns.
  destruct (utf8_char n (flat_map utf8 l) H (utf8_starts l F)) as (c & t & E & _ & O). rewrite E in *. cbn [app]. rewrite cols_cons, O. cbn [fst snd].
  cbn [length skipn app].
  rewrite skipn_app, skipn_all, Nat.sub_diag. cbn [skipn app]. lia.
Qed.

(** ** Characters are not split *)
Lemma u_nil : is_utf8 []. Proof. exists []. split; [constructor|reflexivity]. Qed.
Lemma u_app a b : is_utf8 a -> is_utf8 b -> is_utf8 (a ++ b).
Proof. intros (l & F & ->) (m & G & ->). exists (l ++ m). split; [apply Forall_app; auto|]. rewrite flat_map_app. reflexivity. Qed.
Lemma u_ascii n : n < 128 -> is_utf8 [ascii_of_N n].
Proof. intro L. exists [n]. split; [constructor; [unfold code_point; lia|constructor]|]. cbn [flat_map]. rewrite app_nil_r. unfold utf8. replace (n <? 0x80) with true by lia. reflexivity. Qed.
Lemma u_newline : is_utf8 newline. Proof. exact (u_ascii 10 ltac:(lia)). Qed.
Lemma u_repeat n : is_utf8 (repeat " "%char n). Proof. induction n as [|n IH]; [exact u_nil|]. exact (u_app [" "%char] _ (u_ascii 32 ltac:(lia)) IH). Qed.
Lemma u_spaces n : is_utf8 (spaces n). Proof. apply u_repeat. Qed.
Lemma u_concat l : Forall is_utf8 l -> is_utf8 (concat l). Proof. induction 1 as [|a l H F IH]; [exact u_nil|]. exact (u_app _ _ H IH). Qed.

Lemma code_byte n : n < 256 -> code (ascii_of_N n) = n. Proof. apply N_ascii_embedding. Qed.
(** the bytes of a character that has several are above 127 *)
Lemma utf8_high n x : code_point n -> In x (utf8 n) -> code x < 128 -> utf8 n = [x].
Proof.
  unfold code_point, utf8. intros L I C. destruct (n <? 0x80); [destruct I as [<-|[]]; reflexivity|].
  destruct (n <? 0x800) eqn:B; [|destruct (n <? 0x10000) eqn:E]; apply in_map_iff in I as (y & <- & I); exfalso; cbn [In] in I;
    assert (Y : 128 <= y < 256) by (repeat (destruct I as [<-|I]; [lia|]); destruct I); rewrite code_byte in C by lia; lia.
Qed.
Lemma u_cut a x b : code x < 128 -> is_utf8 (a ++ x :: b) -> is_utf8 a /\ is_utf8 b.
Proof.
  intros C (l & F & E). revert a E. induction F as [|n l H F IH]; intros a E; [destruct a; discriminate|]. cbn [flat_map] in E.
  apply app_eq_app in E as (t & [(E1 & E2)|(E1 & E2)]).
  - destruct (IH t (eq_sym E2)) as [A B]. split; [|exact B]. rewrite E1. apply u_app; [|exact A]. exists [n]. split; [constructor; [exact H|constructor]|]. cbn [flat_map]. rewrite app_nil_r. reflexivity.
  - destruct t as [|y t].
    + rewrite app_nil_r in E1. cbn [app] in E2. destruct (IH [] E2) as [_ B]. split; [|exact B]. rewrite <- E1. exists [n]. split; [constructor; [exact H|constructor]|]. cbn [flat_map]. rewrite app_nil_r. reflexivity.
    + cbn [app] in E2. injection E2 as <- E2. rewrite (utf8_high n x H) in E1; [|rewrite E1; apply in_or_app; right; left; reflexivity|exact C].
      destruct a as [|z a]; [|injection E1 as _ E1; destruct a; discriminate]. injection E1 as <-. split; [exact u_nil|]. cbn [app] in E2. subst b. exists l. auto.
Qed.
Lemma split_first c t : exists p, (split_on c t = [p] /\ t = p) \/ exists b, split_on c t = p :: split_on c b /\ t = p ++ c :: b.
Proof.
  induction t as [|x t (p & IH)]; [exists []; left; split; reflexivity|]. cbn [split_on]. destruct (Ascii.eqb x c) eqn:E.
  - apply Ascii.eqb_eq in E. subst x. exists []. right. exists t. split; reflexivity.
  - destruct IH as [(E1 & E2)|(b & E1 & E2)]; rewrite E1; exists (x :: p); [left; split; [reflexivity|congruence]|right; exists b; split; [reflexivity|cbn [app]; congruence]].
Qed.
Lemma u_split c t : code c < 128 -> is_utf8 t -> Forall is_utf8 (split_on c t).
Proof.
  intro C. remember (length t) as k eqn:K. assert (Le : (length t <= k)%nat) by lia. clear K. revert t Le. induction k as [|k IH]; intros t L U.
  - destruct t; [|cbn in L; lia]. constructor; [exact u_nil|constructor].
  - destruct (split_first c t) as (p & [(E1 & E2)|(b & E1 & E2)]); rewrite E1; [constructor; [subst p; exact U|constructor]|]. rewrite E2 in U. destruct (u_cut p c b C U) as [A B].
    constructor; [exact A|]. apply IH; [|exact B]. rewrite E2, app_length in L. cbn [length] in L. lia.
Qed.

Lemma u_fit fuel : forall width p u, is_utf8 p -> is_utf8 (firstn (fit fuel width p u) p) /\ is_utf8 (skipn (fit fuel width p u) p).
Proof.
  induction fuel as [|f IH]; intros width p u U; [split; [exact u_nil|exact U]|]. cbn [fit]. destruct p as [|c p]; [split; exact u_nil|]. destruct (u <? width)%Z; [|split; [exact u_nil|exact U]].
  destruct ((snd (one_char c p) =? 2)%nat && (width <? u + 2)%Z)%bool; [split; [exact u_nil|exact U]|]. destruct U as (l & F & E). destruct F as [|n l H F]; [discriminate|]. cbn [flat_map] in E.
  destruct (utf8_char n (flat_map utf8 l) H (utf8_starts l F)) as (d & t & E2 & _ & O). rewrite E2 in E. cbn [app] in E. injection E as -> ->. rewrite O. cbn [fst snd].
  assert (K : d :: t ++ flat_map utf8 l = utf8 n ++ flat_map utf8 l) by (rewrite E2; reflexivity). rewrite K.
  assert (Sk : skipn (length (utf8 n)) (utf8 n ++ flat_map utf8 l) = flat_map utf8 l) by (rewrite skipn_app, skipn_all, Nat.sub_diag; reflexivity). rewrite Sk.
  destruct (IH width (flat_map utf8 l) (u + Z.of_nat (cols_of n))%Z (ex_intro _ l (conj F eq_refl))) as [A B]. set (m := fit f width (flat_map utf8 l) (u + Z.of_nat (cols_of n))%Z) in *.
  rewrite firstn_app_2, skipn_app. rewrite (skipn_all2 (utf8 n)) by lia. replace (length (utf8 n) + m - length (utf8 n))%nat with m by lia. split; [|exact B].
  apply u_app; [|exact A]. exists [n]. split; [constructor; [exact H|constructor]|]. cbn [flat_map]. rewrite app_nil_r. reflexivity.
Qed.

(** ** The printing *)
Definition u_wrapper (w : wrapper) : Prop := Forall is_utf8 (slots w).
Lemma u_nth l n : Forall is_utf8 l -> is_utf8 (nth n l []).
Proof. intro F. destruct (nth_in_or_default n l []) as [I|E]; [rewrite Forall_forall in F; exact (F _ I)|rewrite E; exact u_nil]. Qed.
Lemma u_indent a b : is_utf8 (snd (indent a b)).
Proof. unfold indent. assert (N : is_utf8 (if (b - a <? 0)%Z then newline else [])) by (destruct (b - a <? 0)%Z; [exact u_newline|exact u_nil]). destruct (0 <? _)%Z; cbn [snd]; [apply u_app; [exact N|apply u_spaces]|exact N]. Qed.
Lemma u_store w t : u_wrapper w -> is_utf8 t -> u_wrapper (buf_store w t).
Proof.
  unfold u_wrapper. intros F U. cbn [slots buf_store]. unfold set_slot. apply Forall_app. split; [|constructor; [exact U|]]; apply Forall_forall; intros x I; rewrite Forall_forall in F; apply F.
  - rewrite <- (firstn_skipn (head w) (slots w)). apply in_or_app. left. exact I.
  - rewrite <- (firstn_skipn (S (head w)) (slots w)). apply in_or_app. right. exact I.
Qed.
Lemma u_line w : u_wrapper w -> u_wrapper (fst (write_one_line w)) /\ is_utf8 (snd (write_one_line w)).
Proof.
  intro F. unfold write_one_line. assert (A : is_utf8 (if wrote w then newline ++ snd (indent 0 (wx w)) else [])) by (destruct (wrote w); [apply u_app; [exact u_newline|apply u_indent]|exact u_nil]).
  destruct (buf_empty w); cbn [fst snd]; (split; [exact F|]); [exact A|]. apply u_app; [exact A|]. apply u_nth. exact F.
Qed.
Lemma u_output w t : u_wrapper w -> is_utf8 t -> u_wrapper (fst (output w t)) /\ is_utf8 (snd (output w t)).
Proof. intros F U. unfold output. destruct (buf_full w); cbn [fst snd]; [destruct (u_line w F) as [A B]; split; [apply u_store; assumption|exact B]|split; [apply u_store; assumption|exact u_nil]]. Qed.
Lemma u_flush_loop fuel : forall w, u_wrapper w -> u_wrapper (fst (flush_loop fuel w)) /\ is_utf8 (snd (flush_loop fuel w)).
Proof.
  induction fuel as [|f IH]; intros w F; [split; [exact F|exact u_nil]|]. cbn [flush_loop]. destruct (buf_empty w); [split; [exact F|exact u_nil]|]. destruct (u_line w F) as [A B]. destruct (IH _ A) as [C D].
  cbn [fst snd]. split; [exact C|]. apply u_app; assumption.
Qed.
Lemma u_flush w : u_wrapper w -> u_wrapper (fst (flush w)) /\ is_utf8 (snd (flush w)).
Proof.
  intro F. unfold flush. destruct (buf_empty w); [split; [exact F|exact u_nil]|]. destruct (u_flush_loop 16 (set_wrote w false) F) as [A B]. cbn [fst snd]. split; [exact A|].
  apply u_app; [apply u_indent|]. apply u_app; [exact B|exact u_newline].
Qed.
Lemma u_process_loop fuel : forall w data r, u_wrapper w -> is_utf8 data -> process_loop fuel w data = Ret r -> u_wrapper (fst r) /\ is_utf8 (snd r).
Proof.
  induction fuel as [|f IH]; intros w data r F U H; [discriminate|]. cbn [process_loop] in H. destruct data as [|c data]; [apply ret_inj in H; subst r; split; [exact F|exact u_nil]|]. remember (c :: data) as p eqn:Ep.
  destruct (Z.of_nat (length p) <=? wwidth w)%Z; [apply ret_inj in H; subst r; apply u_output; assumption|]. destruct (u_fit (length p) (wwidth w) p 0 U) as [A B]. pose proof (UsageWrap_proofs.fit_le (length p) (wwidth w) p 0) as Le.
  destruct (fit (length p) (wwidth w) p 0 =? length p)%nat eqn:E; [apply ret_inj in H; subst r; apply u_output; assumption|]. apply Nat.eqb_neq in E.
  destruct (last_space (fit (length p) (wwidth w) p 0) p) as [i|] eqn:Ls.
  - destruct (UsageWrap_proofs.last_space_some _ _ _ Ls) as [Li Ni]. pose proof (UsageWrap_proofs.cut_at i p " " ltac:(lia) Ni) as C. rewrite C in U. apply u_cut in U as [Ua Ub]; [|reflexivity].
    destruct (u_output w (firstn i p) F Ua) as [C1 C2]. destruct (process_loop f (fst (output w (firstn i p))) (skipn (S i) p)) as [q| | | |] eqn:Q; try discriminate. apply ret_inj in H. subst r. cbn [fst snd].
    destruct (IH _ _ q C1 Ub Q) as [D1 D2]. split; [exact D1|apply u_app; assumption].
  - destruct (u_output w _ F A) as [C1 C2]. destruct (process_loop f _ _) as [q| | | |] eqn:Q in H; try discriminate. apply ret_inj in H. subst r. cbn [fst snd].
    destruct (IH _ _ q C1 B Q) as [D1 D2]. split; [exact D1|apply u_app; assumption].
Qed.
Lemma u_process w data r : u_wrapper w -> is_utf8 data -> process w data = Ret r -> u_wrapper (fst r) /\ is_utf8 (snd r).
Proof.
  intros F U H. unfold process in H. destruct (process_loop _ _ _) as [q| | | |] eqn:Q in H; try discriminate. cbn [obind] in H. destruct (u_process_loop _ (set_wrote w false) data q F U Q) as [A B].
  destruct (wrote (fst q)); apply ret_inj in H; subst r; [split; assumption|]. destruct (u_line _ A) as [C D]. cbn [fst snd]. split; [exact C|apply u_app; assumption].
Qed.

Definition u_state (st : pstate) : Prop := u_wrapper (plast st) /\ u_wrapper (pinter st) /\ is_utf8 (pout st).
Lemma u_part l st p st' : u_state st -> is_utf8 (pdata p) -> print_part l st p = Ret st' -> u_state st'.
Proof.
  intros (A & B & C) U H. unfold print_part in H. destruct (llast l <? pcol p)%Z; [apply ret_inj in H; subst st'; split; [|split]; assumption|].
  set (nl := if ((pcol p =? 0) && (0 <=? px st))%Z then newline else []) in H. set (r := indent _ _) in H. assert (O : is_utf8 (pout st ++ nl ++ snd r)).
  { apply u_app; [exact C|]. apply u_app; [unfold nl; destruct ((pcol p =? 0) && (0 <=? px st))%Z; [exact u_newline|exact u_nil]|apply u_indent]. }
  destruct ((pcol p <? llast l)%Z && in_table p); [apply ret_inj in H; subst st'; split; [exact A|split; [exact B|cbn [pout]; apply u_app; assumption]]|].
  destruct (negb (lown l) || negb (pcol p =? llast l)%Z); [|apply ret_inj in H; subst st'; split; [exact A|split; [exact B|exact O]]].
  destruct (pcol p =? 0)%Z; (destruct (process _ _) as [q| | | |] eqn:Q in H; try discriminate; cbn [obind] in H; apply ret_inj in H; subst st'); [destruct (u_process _ _ q B U Q) as [D E]|destruct (u_process _ _ q A U Q) as [D E]]; split; [exact A|split; [exact D|cbn [pout]; apply u_app; assumption]|exact D|split; [exact B|cbn [pout]; apply u_app; assumption]].
Qed.
Lemma u_parts l ps : forall st st', u_state st -> (forall p, In p ps -> is_utf8 (pdata p)) -> print_parts l st ps = Ret st' -> u_state st'.
Proof.
  induction ps as [|p ps IH]; intros st st' A U H; cbn [print_parts] in H; [apply ret_inj in H; subst; exact A|]. destruct (print_part l st p) as [s1| | | |] eqn:E; try discriminate. cbn [obind] in H.
  apply (IH s1 st'); [exact (u_part l st p s1 A (U p (or_introl eq_refl)) E)|intros q I; apply U; right; exact I|exact H].
Qed.
Lemma u_own l ps : forall st st', u_state st -> (forall p, In p ps -> is_utf8 (pdata p)) -> print_own l st ps = Ret st' -> u_state st'.
Proof.
  induction ps as [|p ps IH]; intros st st' A U H; cbn [print_own] in H; [apply ret_inj in H; subst; exact A|]. destruct (pcol p =? llast l)%Z; [|apply (IH st st' A); [intros q I; apply U; right; exact I|exact H]].
  destruct (process (plast st) (pdata p)) as [q| | | |] eqn:E; try discriminate. cbn [obind] in H. destruct A as (A & B & C). destruct (u_process _ _ q A (U p (or_introl eq_refl)) E) as [D F].
  refine (IH _ st' _ (fun q I => U q (or_intror I)) H). split; [exact D|]. split; [exact B|]. cbn [pout]. apply u_app; [exact C|]. apply u_app; [exact u_newline|]. apply u_app; [apply u_indent|exact F].
Qed.
Lemma u_row l ps st st' : u_state st -> (forall p, In p ps -> is_utf8 (pdata p)) -> print_row l st ps = Ret st' -> u_state st'.
Proof.
  intros A U H. unfold print_row in H. destruct (print_parts l _ ps) as [s1| | | |] eqn:E in H; try discriminate. cbn [obind] in H.
  apply u_parts in E; [|exact A|exact U]. assert (K : exists s2, (if lown l then print_own l s1 ps else Ret s1) = Ret s2 /\ u_state s2).
  { destruct (lown l); [|exists s1; split; [reflexivity|exact E]]. destruct (print_own l s1 ps) as [s2| | | |] eqn:Q; try discriminate. exists s2. split; [reflexivity|]. exact (u_own l ps s1 s2 E U Q). }
  destruct K as (s2 & K & (B & C & D)). rewrite K in H. cbn [obind] in H. apply ret_inj in H. subst st'. destruct (u_flush _ B) as [B1 B2]. destruct (u_flush _ C) as [C1 C2].
  split; [exact B1|]. split; [exact C1|]. cbn [pout]. apply u_app; [exact D|]. apply u_app; [exact u_newline|]. apply u_app; assumption.
Qed.
Lemma u_rows l pss : forall st st', u_state st -> (forall ps p, In ps pss -> In p ps -> is_utf8 (pdata p)) -> print_rows l st pss = Ret st' -> u_state st'.
Proof.
  induction pss as [|ps pss IH]; intros st st' A U H; cbn [print_rows] in H; [apply ret_inj in H; subst; exact A|]. destruct (print_row l st ps) as [s1| | | |] eqn:E; try discriminate. cbn [obind] in H.
  apply (IH s1 st'); [exact (u_row l ps st s1 A (fun p I => U ps p (or_introl eq_refl) I) E)|intros q p I; apply U; right; exact I|exact H].
Qed.
Lemma u_table width mw ow pss out : (forall ps p, In ps pss -> In p ps -> is_utf8 (pdata p)) -> print_table width mw ow pss = Ret out -> is_utf8 out.
Proof.
  intros U H. unfold print_table in H. destruct (column_widths width pss) as [m| | | |]; try discriminate. cbn [obind] in H. destruct (print_rows _ _ pss) as [st| | | |] eqn:E in H; try discriminate. cbn [obind] in H. apply ret_inj in H. subst out.
  assert (W : forall a b, u_wrapper (wrapper_new a b)) by (intros a b; unfold u_wrapper; cbn [slots wrapper_new]; apply Forall_forall; intros x I; apply repeat_spec in I; subst x; exact u_nil).
  apply u_rows in E; [exact (proj2 (proj2 E))| |exact U]. split; [apply W|]. split; [apply W|exact u_nil].
Qed.
Lemma u_all width mw ow ts : forall out, (forall pss ps p, In pss ts -> In ps pss -> In p ps -> is_utf8 (pdata p)) -> print_all width mw ow ts = Ret out -> is_utf8 out.
Proof.
  induction ts as [|t ts IH]; intros out U H; cbn [print_all] in H; [apply ret_inj in H; subst; exact u_nil|]. destruct (print_table width mw ow t) as [x| | | |] eqn:E; try discriminate. cbn [obind] in H.
  destruct (print_all width mw ow ts) as [y| | | |] eqn:E2; try discriminate. cbn [obind] in H. apply ret_inj in H. subst out. apply u_app; [exact (u_table _ _ _ t x (fun ps p => U t ps p (or_introl eq_refl)) E)|].
  exact (IH y (fun pss ps p I => U pss ps p (or_intror I)) eq_refl).
Qed.
