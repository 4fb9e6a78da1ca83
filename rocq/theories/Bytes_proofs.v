(** Proofs about [to_bytes] and [from_bytes] (C12, C13). *)
From Coq Require Import ZArith NArith QArith Qround Qpower Qabs Lqa Lia ZifyBool ZifyN ZifyNat.
From Verif Require Import Str Outcome StrUtils_model Math_model Math_spec Math_proofs Float_model Float_proofs Bytes_model Bytes_spec.
Local Open Scope Z_scope.

(** * The text *)
Lemma digit_class_iff c : digit_class c = true <-> is_digit c.
Proof. unfold digit_class, is_digit. cbn zeta. lia. Qed.
Lemma space_class_iff c : space_class c = true <-> is_blank c.
Proof. unfold space_class, is_blank. cbn zeta. lia. Qed.
Lemma alpha_class_iff c : alpha_class c = true <-> is_letter c.
Proof. unfold alpha_class, is_letter. cbn zeta. lia. Qed.

Definition stops (p : ascii -> bool) (t : str) : Prop := match t with c :: _ => p c = false | [] => True end.

Lemma span_ok p a b : Forall (fun c => p c = true) a -> stops p b -> span p (a ++ b) = (a, b).
Proof.
  intros F B. induction F as [|c a E F IH]; cbn [span List.app].
  - destruct b as [|c b]; [reflexivity|]. cbn in B. cbn [span]. rewrite B. reflexivity.
  - rewrite E, IH. reflexivity.
Qed.

Lemma span_inv p t a b : span p t = (a, b) -> t = a ++ b /\ Forall (fun c => p c = true) a /\ stops p b.
Proof.
  revert a b. induction t as [|c t IH]; intros a b E; cbn [span] in E.
  - injection E as <- <-. repeat split. constructor.
  - destruct (p c) eqn:P.
    + destruct (span p t) as [a' b'] eqn:Q. injection E as <- <-. destruct (IH _ _ eq_refl) as [E1 [E2 E3]]. split; [cbn; f_equal; exact E1|]. split; [constructor; assumption|exact E3].
    + injection E as <- <-. split; [reflexivity|]. split; [constructor|exact P].
Qed.

Lemma letter_not_blank c : is_letter c -> space_class c = false.
Proof. unfold is_letter, space_class. cbn zeta. lia. Qed.
Lemma letter_not_digit c : is_letter c -> digit_class c = false.
Proof. unfold is_letter, digit_class. cbn zeta. lia. Qed.
Lemma blank_not_digit c : is_blank c -> digit_class c = false.
Proof. unfold is_blank, digit_class. cbn zeta. lia. Qed.
Lemma dot_code : N_of_ascii "." = 46%N. Proof. reflexivity. Qed.

Lemma Forall_class (p : ascii -> bool) P t : (forall c, p c = true <-> P c) -> Forall P t -> Forall (fun c => p c = true) t.
Proof. intros H F. eapply Forall_impl; [|exact F]. intros c K. apply H. exact K. Qed.
Lemma Forall_class' (p : ascii -> bool) P t : (forall c, p c = true <-> P c) -> Forall (fun c => p c = true) t -> Forall P t.
Proof. intros H F. eapply Forall_impl; [|exact F]. intros c K. apply H. exact K. Qed.

Lemma match_ok t whole part blanks unit : written t whole part blanks unit -> match_quantity t = Some (whole, part, unit).
Proof.
  intros (-> & W & DW & DP & B & U & LU). unfold match_quantity.
  apply (Forall_class _ _ _ digit_class_iff) in DW. apply (Forall_class _ _ _ digit_class_iff) in DP.
  assert (SU : stops space_class (unit ++ [])). { destruct unit as [|c u]; [exact I|]. inversion LU; subst. apply letter_not_blank. assumption. }
  assert (SB : stops digit_class (blanks ++ unit)).
  { destruct blanks as [|c b]; [|inversion B; subst; apply blank_not_digit; assumption]. destruct unit as [|c u]; [exact I|]. inversion LU; subst. apply letter_not_digit. assumption. }
  assert (ND : match blanks ++ unit with c :: _ => Ascii.eqb c "." = false | [] => True end).
  { destruct blanks as [|c b]; cbn [List.app]; [destruct unit as [|c u]; [exact I|inversion LU; subst]|inversion B; subst]; apply Ascii.eqb_neq; intros ->.
    - match goal with H : is_letter _ |- _ => unfold is_letter in H; rewrite dot_code in H; lia end.
    - match goal with H : is_blank _ |- _ => unfold is_blank in H; rewrite dot_code in H; lia end. }
  rewrite (span_ok digit_class whole).
  2: exact DW.
  2: { destruct part as [|p ps]; [exact SB|reflexivity]. }
  destruct part as [|p ps].
  - cbn [List.app]. destruct (blanks ++ unit) as [|c r] eqn:E. { destruct blanks, unit; try discriminate. contradiction. }
    rewrite ND. rewrite <- E. rewrite <- (app_nil_r unit) at 1. rewrite (span_ok space_class blanks); [|eapply Forall_class; [exact space_class_iff|exact B]|exact SU].
    rewrite (span_ok alpha_class unit []); [|eapply Forall_class; [exact alpha_class_iff|exact LU]|exact I].
    destruct whole; [contradiction|]. destruct unit; [contradiction|]. reflexivity.
  - cbn [List.app]. change (Ascii.eqb "." ".") with true. cbn iota. change (p :: ps ++ blanks ++ unit) with ((p :: ps) ++ blanks ++ unit).
    rewrite (span_ok digit_class (p :: ps)); [|exact DP|exact SB]. cbn [is_nil].
    rewrite <- (app_nil_r unit) at 1. rewrite (span_ok space_class blanks); [|eapply Forall_class; [exact space_class_iff|exact B]|exact SU].
    rewrite (span_ok alpha_class unit []); [|eapply Forall_class; [exact alpha_class_iff|exact LU]|exact I].
    destruct whole; [contradiction|]. destruct unit; [contradiction|]. reflexivity.
Qed.

Lemma match_inv t whole part unit : match_quantity t = Some (whole, part, unit) -> exists blanks, written t whole part blanks unit.
Proof.
  unfold match_quantity. destruct (span digit_class t) as [w r1] eqn:E1. apply span_inv in E1. destruct E1 as (T & DW & _).
  destruct (match r1 with
            | c :: r => if Ascii.eqb c "." then let '(p, r') := span digit_class r in if is_nil p then ([], r1) else (p, r') else ([], r1)
            | [] => ([], []) end) as [p r2] eqn:E2.
  destruct (span space_class r2) as [b r3] eqn:E3. apply span_inv in E3. destruct E3 as (T3 & B & _).
  destruct (span alpha_class r3) as [u r4] eqn:E4. apply span_inv in E4. destruct E4 as (T4 & U & _).
  destruct (is_nil w || is_nil u || negb (is_nil r4)) eqn:C; [discriminate|]. intro E. injection E as <- <- <-.
  assert (R4 : r4 = []) by (destruct r4; [reflexivity|rewrite !orb_true_r in C; discriminate]).
  assert (W : w <> []) by (intros ->; discriminate). assert (NU : u <> []) by (intros ->; rewrite orb_true_r in C; discriminate).
  assert (R1 : r1 = (match p with [] => [] | _ => "."%char :: p end) ++ r2 /\ Forall (fun c => digit_class c = true) p).
  { destruct r1 as [|c r]; [injection E2 as <- <-; split; [reflexivity|constructor]|]. destruct (Ascii.eqb c ".") eqn:D; [|injection E2 as <- <-; split; [reflexivity|constructor]].
    apply Ascii.eqb_eq in D. subst c. destruct (span digit_class r) as [p' r'] eqn:E5. destruct p' as [|c' p'].
    - cbn [is_nil] in E2. injection E2 as <- <-. split; [reflexivity|constructor].
    - cbn [is_nil] in E2. injection E2 as <- <-. apply span_inv in E5. destruct E5 as (-> & F & _). split; [reflexivity|exact F]. }
  destruct R1 as [R1 DP]. exists b. subst r4. rewrite app_nil_r in T4. subst r3. subst r2. unfold written.
  split; [rewrite T, R1; reflexivity|]. split; [exact W|]. split; [exact (Forall_class' _ _ _ digit_class_iff DW)|].
  split; [exact (Forall_class' _ _ _ digit_class_iff DP)|]. split; [exact (Forall_class' _ _ _ space_class_iff B)|]. split; [exact NU|]. exact (Forall_class' _ _ _ alpha_class_iff U).
Qed.

Lemma digits_value_number t : Forall is_digit t -> digits_value t = Z.of_N (number_of t).
Proof.
  unfold digits_value, number_of. change 0 with (Z.of_N 0). generalize 0%N. intros n F. revert n. induction F as [|c t D F IH]; intro n; [reflexivity|].
  cbn [fold_left]. rewrite <- IH. f_equal. unfold is_digit, digit_value in *. lia.
Qed.

Lemma decimal_value_amount t whole part blanks unit : written t whole part blanks unit -> decimal_value whole part = amount whole part.
Proof. intros (_ & _ & DW & DP & _). unfold decimal_value, amount. rewrite digits_value_number; [reflexivity|]. apply Forall_app. split; assumption. Qed.

(** * The unit *)
Lemma toupper_code a : is_letter a -> N_of_ascii (toupper a) = (if 97 <=? N_of_ascii a then N_of_ascii a - 32 else N_of_ascii a)%N.
Proof.
  intro L. unfold toupper. cbn zeta. unfold is_letter in L. destruct (97 <=? N_of_ascii a)%N eqn:E.
  - replace (N_of_ascii a <=? 122)%N with true by lia. cbn [andb]. rewrite N_ascii_embedding by lia. reflexivity.
  - reflexivity.
Qed.

Lemma code_inj a b : N_of_ascii a = N_of_ascii b -> a = b.
Proof. intro H. rewrite <- (ascii_N_embedding a), <- (ascii_N_embedding b), H. reflexivity. Qed.

Lemma toupper_same a b : is_letter a -> is_letter b -> (toupper a = toupper b <-> same_letter a b).
Proof.
  intros A B. pose proof (toupper_code a A) as CA. pose proof (toupper_code b B) as CB. unfold same_letter. split.
  - intro E. rewrite E in CA. rewrite CA in CB. destruct (97 <=? N_of_ascii a)%N eqn:EA, (97 <=? N_of_ascii b)%N eqn:EB.
    + left. apply code_inj. lia.
    + right. repeat split; try assumption. lia.
    + right. repeat split; try assumption. lia.
    + left. apply code_inj. lia.
  - intros [->|(_ & _ & H)]; [reflexivity|]. apply code_inj. rewrite CA, CB. unfold is_letter in A, B. destruct (97 <=? N_of_ascii a)%N eqn:EA, (97 <=? N_of_ascii b)%N eqn:EB; lia.
Qed.

Lemma upper_same a b : Forall is_letter a -> Forall is_letter b -> (to_uppercase a = to_uppercase b <-> Forall2 same_letter a b).
Proof.
  intros A. revert b. induction A as [|x a X A IH]; intros b B.
  - destruct B as [|y b Y B]; split; intro H; try constructor; try discriminate; inversion H.
  - destruct B as [|y b Y B]; [split; intro H; [discriminate|inversion H]|]. cbn. split; intro H.
    + injection H as H1 H2. constructor; [apply (toupper_same x y X Y); exact H1|apply IH; assumption].
    + inversion H; subst. f_equal; [apply (toupper_same x y X Y); assumption|apply IH; assumption].
Qed.

Lemma str_eqb_eq a b : str_eqb a b = true <-> a = b.
Proof.
  revert b. induction a as [|x a IH]; intros [|y b]; cbn; try (split; intro; [reflexivity || discriminate|reflexivity || discriminate]).
  rewrite andb_true_iff, IH, Ascii.eqb_eq. split; [intros [-> ->]; reflexivity|intro E; injection E as -> ->; split; reflexivity].
Qed.

Lemma find_in l n f : find_unit l n = Some f -> In (n, f) l.
Proof. induction l as [|[m g] l IH]; cbn; [discriminate|]. destruct (str_eqb m n) eqn:E; [apply str_eqb_eq in E; intro H; injection H as ->; subst; left; reflexivity|intro H; right; apply IH; exact H]. Qed.

Definition unit_list : list (str * Z) :=
  [(s "B", 1); (s "KB", 1000 ^ 1); (s "MB", 1000 ^ 2); (s "GB", 1000 ^ 3); (s "TB", 1000 ^ 4); (s "PB", 1000 ^ 5);
   (s "KiB", 1024 ^ 1); (s "MiB", 1024 ^ 2); (s "GiB", 1024 ^ 3); (s "TiB", 1024 ^ 4); (s "PiB", 1024 ^ 5)].

Lemma unit_size_iff n f : unit_size n f <-> In (n, f) unit_list.
Proof.
  split.
  - intros [|i c H|i c H]; [left; reflexivity| |]; do 5 (destruct i as [|i]; [injection H as <-; cbn; tauto|]); destruct i; discriminate.
  - intro H. cbn in H. repeat match goal with H : _ \/ _ |- _ => destruct H as [H|H] end; [..|contradiction]; injection H as <- <-;
      [exact Bytes|exact (Decimal 0 _ eq_refl)|exact (Decimal 1 _ eq_refl)|exact (Decimal 2 _ eq_refl)|exact (Decimal 3 _ eq_refl)|exact (Decimal 4 _ eq_refl)
      |exact (Binary 0 _ eq_refl)|exact (Binary 1 _ eq_refl)|exact (Binary 2 _ eq_refl)|exact (Binary 3 _ eq_refl)|exact (Binary 4 _ eq_refl)].
Qed.

Lemma units_upper : units = map (fun '(n, f) => (to_uppercase n, f)) unit_list.
Proof. vm_compute. reflexivity. Qed.

Lemma letters_dec t : forallb alpha_class t = true -> Forall is_letter t.
Proof. intro H. rewrite forallb_forall in H. apply Forall_forall. intros c I. apply alpha_class_iff. apply H. exact I. Qed.
Lemma unit_letters n f : unit_size n f -> Forall is_letter n.
Proof.
  intro H. apply unit_size_iff in H. apply letters_dec.
  assert (A : forallb (fun '(n, _) => forallb alpha_class n) unit_list = true) by (vm_compute; reflexivity).
  rewrite forallb_forall in A. exact (A _ H).
Qed.

Lemma nodup_keys : NoDup (map fst units).
Proof. vm_compute. repeat (constructor; [cbn; intros X; repeat match goal with H : _ \/ _ |- _ => destruct H as [H|H] end; solve [discriminate | exact X]|]). constructor. Qed.

Lemma in_find l n f : NoDup (map fst l) -> In (n, f) l -> find_unit l n = Some f.
Proof.
  induction l as [|[m g] l IH]; cbn; [contradiction|]. intros N [E|I].
  - injection E as -> ->. replace (str_eqb n n) with true by (symmetry; apply str_eqb_eq; reflexivity). reflexivity.
  - inversion N as [|? ? N1 N2]; subst. destruct (str_eqb m n) eqn:E; [|apply IH; assumption]. apply str_eqb_eq in E. subst m. exfalso. apply N1. change n with (fst (n, f)). apply in_map. exact I.
Qed.

Lemma find_unit_named u f : Forall is_letter u -> (find_unit units (to_uppercase u) = Some f <-> unit_named u f).
Proof.
  intro L. split.
  - intro H. apply find_in in H. rewrite units_upper in H. apply in_map_iff in H. destruct H as [[n g] [E I]]. injection E as E1 E2. subst g.
    apply unit_size_iff in I. exists n. split; [exact I|]. apply upper_same; [exact (unit_letters _ _ I)|exact L|exact E1].
  - intros (n & S & F). apply upper_same in F; [|exact (unit_letters _ _ S)|exact L]. apply in_find; [exact nodup_keys|].
    rewrite units_upper. apply in_map_iff. exists (n, f). rewrite F. split; [reflexivity|]. apply unit_size_iff. exact S.
Qed.

(** * The number *)
Local Open Scope Q_scope.

Lemma amount_nonneg w p : 0 <= amount w p.
Proof.
  unfold amount. apply Qle_shift_div_l; [change 0 with (inject_Z 0); apply inject_lt; apply Z.pow_pos_nonneg; lia|].
  rewrite Qmult_0_l. change 0 with (inject_Z 0). apply inject_le. lia.
Qed.

Lemma unit_named_bounds u f : unit_named u f -> (1 <= f <= 2 ^ 50)%Z.
Proof.
  intros (n & S & _). apply unit_size_iff in S.
  assert (A : forallb (fun '(_, f) => (1 <=? f) && (f <=? 2 ^ 50))%Z unit_list = true) by (vm_compute; reflexivity).
  rewrite forallb_forall in A. specialize (A _ S). cbn beta iota in A. lia.
Qed.

Lemma precise_rnd v : precise v -> rnd v == v.
Proof. intros (m & k & M & K & E). exact (rnd_exact m k v M K E). Qed.

Lemma rnd_tiny : rnd (2 ^ (-1022)) == 2 ^ (-1022).
Proof. apply (rnd_exact 1 (-1022)); [lia|lia|]. change (inject_Z 1) with 1. ring. Qed.
Lemma rnd_big : rnd (2 ^ 1023) == 2 ^ 1023.
Proof. apply (rnd_exact 1 1023); [lia|lia|]. change (inject_Z 1) with 1. ring. Qed.

Lemma stod_some v x : stod v = Some x -> x = rnd v.
Proof. unfold stod, double. destruct (_ || _); [|discriminate]. destruct (Qle_bool (2 ^ 1024) (rnd v)); [discriminate|]. intro H. injection H as <-. reflexivity. Qed.

Lemma stod_ok v : not_tiny v -> v < 2 ^ 1023 -> stod v = Some (rnd v).
Proof.
  intros T B. unfold stod, double.
  assert (C : Qle_bool (2 ^ (-1022)) v || Qeq_bool (rnd v) v = true).
  { destruct T as [Z0|N]; [|apply orb_true_iff; left; apply Qle_bool_iff; exact N]. apply orb_true_iff. right. apply Qeq_bool_iff. rewrite (rnd_comp _ _ Z0), Z0. reflexivity. }
  rewrite C. destruct (Qle_bool (2 ^ 1024) (rnd v)) eqn:E; [|reflexivity]. apply Qle_bool_iff in E. exfalso.
  assert (M : rnd v <= rnd (2 ^ 1023)) by (apply rnd_mono; lra). rewrite rnd_big in M.
  assert (L : 2 ^ 1023 < 2 ^ 1024) by (apply Qpower_lt_compat_l; [lia|reflexivity]). lra.
Qed.

Lemma of_u64_unit f : (1 <= f <= 2 ^ 50)%Z -> of_u64 f == inject_Z f.
Proof. intro H. unfold of_u64. apply rnd_Z. lia. Qed.

(** the result on a well formed text with a known unit *)
Lemma to_bytes_eq t w p b u f : written t w p b u -> unit_named u f ->
  to_bytes t =
  match stod (amount w p) with
  | None => Throw OutOfRange
  | Some number =>
      if negb (Qle_bool number (of_u64 (u64_max / f))) then Throw InvalidArgument
      else match to_u64 (rnd (number * of_u64 f)) with Some bytes => Ret bytes | None => UB end
  end.
Proof.
  intros W U. unfold to_bytes. rewrite (match_ok _ _ _ _ _ W). rewrite (decimal_value_amount _ _ _ _ _ W).
  destruct W as (_ & _ & _ & _ & _ & _ & LU). apply (find_unit_named u f LU) in U. rewrite U. reflexivity.
Qed.

(** the number: relative error 2^-53 *)
Lemma number_bounds v : 0 <= v -> not_tiny v -> v * (1 - (1 # 9007199254740992)) <= rnd v /\ rnd v <= v * (1 + (1 # 9007199254740992)).
Proof.
  intros P [Z0|N].
  - rewrite (rnd_comp _ _ Z0). rewrite rnd_0. rewrite Z0. lra.
  - pose proof (rnd_err v N) as E. apply Qabs_Qle_condition in E. lra.
Qed.

Lemma not_tiny_rnd v f : 0 <= v -> not_tiny v -> (1 <= f)%Z -> not_tiny (rnd v * inject_Z f).
Proof.
  intros P [Z0|N] F.
  - left. rewrite (rnd_comp _ _ Z0), rnd_0. ring.
  - right. assert (M : rnd (2 ^ (-1022)) <= rnd v) by (apply rnd_mono; exact N). rewrite rnd_tiny in M.
    assert (F1 : 1 <= inject_Z f) by (change 1 with (inject_Z 1); apply inject_le; exact F).
    apply Qle_trans with (rnd v); [exact M|]. rewrite <- (Qmult_1_r (rnd v)) at 1. rewrite !(Qmult_comm (rnd v)). apply Qmult_le_compat_r; [exact F1|apply rnd_nonneg].
Qed.

Lemma product_bounds v f : 0 <= v -> not_tiny v -> (1 <= f)%Z ->
  v * inject_Z f * (1 - (1 # 4503599627370496)) <= rnd (rnd v * inject_Z f) /\
  rnd (rnd v * inject_Z f) <= v * inject_Z f * (1 + (1 # 2251799813685248)).
Proof.
  intros P T F. destruct (number_bounds v P T) as [A B].
  assert (F0 : 0 <= inject_Z f) by (change 0 with (inject_Z 0); apply inject_le; lia).
  assert (PN : 0 <= rnd v * inject_Z f) by (apply Qmult_le_0_compat; [apply rnd_nonneg|exact F0]).
  destruct (number_bounds (rnd v * inject_Z f) PN (not_tiny_rnd v f P T F)) as [C D].
  assert (A' := Qmult_le_compat_r _ _ _ A F0). assert (B' := Qmult_le_compat_r _ _ _ B F0).
  set (X := v * inject_Z f). assert (X0 : 0 <= X) by (apply Qmult_le_0_compat; assumption).
  assert (A2 : X * (1 - (1 # 9007199254740992)) <= rnd v * inject_Z f) by (apply Qle_trans with (2 := A'); unfold X; lra).
  assert (B2 : rnd v * inject_Z f <= X * (1 + (1 # 9007199254740992))) by (apply Qle_trans with (1 := B'); unfold X; lra).
  generalize dependent (rnd (rnd v * inject_Z f)). generalize dependent (rnd v * inject_Z f). intros y _ _ _ A2 B2 z C D.
  clearbody X. split; lra.
Qed.

Lemma floor_comp p q : p == q -> Qfloor p = Qfloor q.
Proof. intro H. apply Z.le_antisymm; apply Qfloor_resp_le; lra. Qed.

Lemma rnd_prod v f : (1 <= f <= 2 ^ 50)%Z -> rnd (v * of_u64 f) == rnd (v * inject_Z f).
Proof. intro H. apply rnd_comp. rewrite (of_u64_unit f H). reflexivity. Qed.

Lemma limit_below f : (1 <= f)%Z -> inject_Z (u64_max / f) * inject_Z f <= inject_Z u64_max.
Proof. intro H. rewrite <- inject_Z_mult. apply inject_le. pose proof (Z.mul_div_le u64_max f ltac:(lia)). lia. Qed.

Lemma small_1023 v f : (1 <= f)%Z -> 0 <= v -> v <= inject_Z (u64_max / f) -> v < 2 ^ 1023.
Proof.
  intros F P H. apply Qle_lt_trans with (1 := H). apply Qle_lt_trans with (inject_Z u64_max).
  - apply inject_le. apply Z.div_le_upper_bound; [lia|]. unfold u64_max. nia.
  - unfold u64_max. apply Qlt_le_trans with (2 ^ 64); [|apply two_le; lia]. vm_compute. reflexivity.
Qed.

Lemma to_u64_some x : x < inject_Z (2 ^ 64) -> to_u64 x = Some (Qfloor x).
Proof.
  intro H. unfold to_u64. cbn zeta. replace (Qfloor x <? 2 ^ 64)%Z with true; [reflexivity|]. symmetry. apply Z.ltb_lt. apply inject_lt.
  destruct (floor_bounds x) as [A _]. lra.
Qed.

(** texts that are exact *)
Lemma exact_lemma t w p b u f n : written t w p b u -> unit_named u f -> precise (amount w p) ->
  amount w p <= inject_Z ((2 ^ 64 - 1) / f) ->
  amount w p * inject_Z f == inject_Z n -> precise (inject_Z n) -> to_bytes t = Ret n.
Proof.
  intros W U P1 H1 E P2. pose proof (unit_named_bounds _ _ U) as F. rewrite (to_bytes_eq _ _ _ _ _ _ W U).
  pose proof (amount_nonneg w p) as NN. set (v := amount w p) in *. clearbody v.
  assert (S : stod v = Some (rnd v)).
  { unfold stod, double. replace (Qeq_bool (rnd v) v) with true by (symmetry; apply Qeq_bool_iff; apply precise_rnd; exact P1). rewrite orb_true_r.
    destruct (Qle_bool (2 ^ 1024) (rnd v)) eqn:L; [|reflexivity]. exfalso. apply Qle_bool_iff in L. rewrite (precise_rnd _ P1) in L.
    pose proof (small_1023 v f ltac:(lia) NN H1) as S. assert (L2 : 2 ^ 1023 < 2 ^ 1024) by (apply Qpower_lt_compat_l; [lia|reflexivity]). lra. }
  rewrite S. replace (Qle_bool (rnd v) (of_u64 (u64_max / f))) with true by (symmetry; apply Qle_bool_iff; apply rnd_mono; exact H1). cbn [negb].
  assert (R : rnd (rnd v * of_u64 f) == inject_Z n). { rewrite (rnd_prod _ _ F). rewrite <- (precise_rnd _ P2). apply rnd_comp. rewrite (precise_rnd _ P1). exact E. }
  rewrite to_u64_some.
  - rewrite (floor_comp _ _ R), Qfloor_Z. reflexivity.
  - rewrite R, <- E. pose proof (limit_below f ltac:(lia)) as LB. assert (F0 : 0 <= inject_Z f) by (change 0 with (inject_Z 0); apply inject_le; lia).
    pose proof (Qmult_le_compat_r _ _ _ H1 F0) as LC. assert (LD : inject_Z u64_max < inject_Z (2 ^ 64)) by (apply inject_lt; reflexivity).
    unfold u64_max in *. lra.
Qed.

(** every text in range *)
Lemma near_lemma t w p b u f : written t w p b u -> unit_named u f -> not_tiny (amount w p) ->
  amount w p <= inject_Z ((2 ^ 64 - 1) / f) -> amount w p * inject_Z f <= inject_Z (2 ^ 64 - 2 ^ 14) ->
  exists n, to_bytes t = Ret n /\
    amount w p * inject_Z f * (1 - (1 # 2 ^ 52)) - 1 < inject_Z n /\ inject_Z n <= amount w p * inject_Z f * (1 + (1 # 2 ^ 51)).
Proof.
  intros W U T H1 H2. pose proof (unit_named_bounds _ _ U) as F. rewrite (to_bytes_eq _ _ _ _ _ _ W U).
  pose proof (amount_nonneg w p) as NN. set (v := amount w p) in *. clearbody v.
  rewrite (stod_ok v T (small_1023 v f ltac:(lia) NN H1)).
  replace (Qle_bool (rnd v) (of_u64 (u64_max / f))) with true by (symmetry; apply Qle_bool_iff; apply rnd_mono; exact H1). cbn [negb].
  destruct (product_bounds v f NN T ltac:(lia)) as [A B]. rewrite <- (rnd_prod _ _ F) in A, B.
  change (1 # 2 ^ 52) with (1 # 4503599627370496). change (1 # 2 ^ 51) with (1 # 2251799813685248).
  change (inject_Z (2 ^ 64 - 2 ^ 14)) with (18446744073709535232 # 1) in H2.
  rewrite to_u64_some.
  - exists (Qfloor (rnd (rnd v * of_u64 f))). split; [reflexivity|]. destruct (floor_bounds (rnd (rnd v * of_u64 f))) as [C D]. split; lra.
  - change (inject_Z (2 ^ 64)) with (18446744073709551616 # 1). lra.
Qed.

(** amounts that do not fit *)
Lemma large_lemma t w p b u f : written t w p b u -> unit_named u f ->
  inject_Z (2 ^ 64 + 2 ^ 14) <= amount w p * inject_Z f -> amount w p < 2 ^ 1023 -> to_bytes t = Throw InvalidArgument.
Proof.
  intros W U H1 H2. pose proof (unit_named_bounds _ _ U) as F. rewrite (to_bytes_eq _ _ _ _ _ _ W U).
  pose proof (amount_nonneg w p) as NN. set (v := amount w p) in *. clearbody v.
  change (inject_Z (2 ^ 64 + 2 ^ 14)) with (18446744073709568000 # 1) in H1.
  assert (F0 : 0 < inject_Z f) by (change 0 with (inject_Z 0); apply inject_lt; lia).
  assert (F50 : inject_Z f <= 1125899906842624) by (change 1125899906842624 with (inject_Z (2 ^ 50)); apply inject_le; lia).
  assert (V1 : 1 <= v). { destruct (Qlt_le_dec v 1) as [L|L]; [|exact L]. exfalso. pose proof (Qmult_le_compat_r v 1 (inject_Z f) ltac:(lra) ltac:(lra)). lra. }
  assert (T : not_tiny v). { right. apply Qle_trans with 1; [|exact V1]. change 1 with (2 ^ 0). apply two_le. lia. }
  rewrite (stod_ok v T H2). destruct (Qle_bool (rnd v) (of_u64 (u64_max / f))) eqn:C; [|reflexivity]. exfalso. apply Qle_bool_iff in C.
  destruct (number_bounds v NN T) as [A _]. unfold of_u64 in C.
  assert (L0 : (0 < u64_max / f)%Z) by (apply Z.div_str_pos; unfold u64_max; lia).
  assert (TL : not_tiny (inject_Z (u64_max / f))).
  { right. apply Qle_trans with 1; [change 1 with (2 ^ 0); apply two_le; lia|]. change 1 with (inject_Z 1). apply inject_le. lia. }
  assert (LN : 0 <= inject_Z (u64_max / f)) by (change 0 with (inject_Z 0); apply inject_le; lia).
  destruct (number_bounds _ LN TL) as [_ D].
  assert (K : v * (1 - (1 # 9007199254740992)) <= inject_Z (u64_max / f) * (1 + (1 # 9007199254740992))) by lra.
  pose proof (limit_below f ltac:(lia)) as LB. pose proof (Qmult_le_compat_r _ _ (inject_Z f) K ltac:(lra)) as K2.
  change (inject_Z u64_max) with (18446744073709551615 # 1) in LB.
  set (X := v * inject_Z f) in *. set (Y := inject_Z (u64_max / f) * inject_Z f) in *.
  assert (K3 : X * (1 - (1 # 9007199254740992)) <= Y * (1 + (1 # 9007199254740992))) by (unfold X, Y; lra).
  clearbody X Y. lra.
Qed.

(** errors *)
Lemma malformed_lemma t : ~ well_formed t -> to_bytes t = Throw InvalidArgument.
Proof.
  intro H. unfold to_bytes. destruct (match_quantity t) as [[[w p] u]|] eqn:E; [|reflexivity]. exfalso. apply H.
  destruct (match_inv _ _ _ _ E) as [b W]. exists w, p, b, u. exact W.
Qed.

Lemma find_unknown u : Forall is_letter u -> (forall f, ~ unit_named u f) -> find_unit units (to_uppercase u) = None.
Proof. intros L H. destruct (find_unit units (to_uppercase u)) as [f|] eqn:E; [|reflexivity]. exfalso. apply (H f). apply find_unit_named; assumption. Qed.

Lemma unknown_lemma t w p b u : written t w p b u -> (forall f, ~ unit_named u f) ->
  to_bytes t = Throw InvalidArgument \/ (to_bytes t = Throw OutOfRange /\ ~ (not_tiny (amount w p) /\ amount w p < 2 ^ 1023)).
Proof.
  intros W H. unfold to_bytes. rewrite (match_ok _ _ _ _ _ W), (decimal_value_amount _ _ _ _ _ W).
  destruct W as (_ & _ & _ & _ & _ & _ & L). rewrite (find_unknown u L H).
  destruct (stod (amount w p)) eqn:E; [left; reflexivity|right]. split; [reflexivity|]. intros [T B]. rewrite (stod_ok _ T B) in E. discriminate.
Qed.

Lemma out_of_range_lemma t w p b u : written t w p b u -> to_bytes t = Throw OutOfRange -> ~ (not_tiny (amount w p) /\ amount w p < 2 ^ 1023).
Proof.
  intros W H [T B]. unfold to_bytes in H. rewrite (match_ok _ _ _ _ _ W), (decimal_value_amount _ _ _ _ _ W), (stod_ok _ T B) in H.
  destruct (find_unit units (to_uppercase u)); [|discriminate]. destruct (negb _); [discriminate|]. destruct (to_u64 _); discriminate.
Qed.

Lemma outcome_lemma t : (exists n, to_bytes t = Ret n /\ (0 <= n < 2 ^ 64)%Z) \/ to_bytes t = Throw InvalidArgument \/ to_bytes t = Throw OutOfRange \/ to_bytes t = UB.
Proof.
  unfold to_bytes. destruct (match_quantity t) as [[[w p] u]|]; [|right; left; reflexivity].
  destruct (stod (decimal_value w p)); [|right; right; left; reflexivity]. destruct (find_unit units (to_uppercase u)); [|right; left; reflexivity].
  destruct (negb _); [right; left; reflexivity|]. unfold to_u64. cbn zeta. set (x := rnd _). destruct (Qfloor x <? 2 ^ 64)%Z eqn:E; [|right; right; right; reflexivity].
  left. eexists. split; [reflexivity|]. split; [|lia]. change 0%Z with (Qfloor 0). apply Qfloor_resp_le. apply rnd_nonneg.
Qed.

(** larger amounts are never fewer bytes *)
Lemma monotone_lemma t w p b u t' w' p' b' u' f n n' : written t w p b u -> written t' w' p' b' u' -> unit_named u f -> unit_named u' f ->
  amount w p <= amount w' p' -> to_bytes t = Ret n -> to_bytes t' = Ret n' -> (n <= n')%Z.
Proof.
  intros W W' U U' L E E'. pose proof (unit_named_bounds _ _ U) as F. rewrite (to_bytes_eq _ _ _ _ _ _ W U) in E. rewrite (to_bytes_eq _ _ _ _ _ _ W' U') in E'.
  destruct (stod (amount w p)) as [x|] eqn:S; [|discriminate]. destruct (stod (amount w' p')) as [x'|] eqn:S'; [|discriminate].
  apply stod_some in S, S'. subst x x'. destruct (negb _); [discriminate|]. destruct (negb _); [discriminate|].
  unfold to_u64 in E, E'. cbn zeta in E, E'. destruct (_ <? _)%Z; [|discriminate]. destruct (_ <? _)%Z; [|discriminate]. injection E as <-. injection E' as <-.
  apply Qfloor_resp_le. apply rnd_mono. apply Qmult_le_compat_r; [apply rnd_mono; exact L|apply rnd_nonneg].
Qed.

(** undefined behaviour *)
Lemma limit_table : forallb (fun '(_, f) => (f <=? 1024) || (((2 ^ 64 - 1) / f <=? 2 ^ 53) && ((2 ^ 64 - 1) / f * f <=? 2 ^ 64 - 2048)))%Z unit_list = true.
Proof. vm_compute. reflexivity. Qed.

Lemma rnd_below x : x <= inject_Z (2 ^ 64 - 2048) -> rnd x < inject_Z (2 ^ 64).
Proof.
  intro H. apply Qle_lt_trans with (inject_Z (2 ^ 64 - 2048)); [|apply inject_lt; reflexivity].
  assert (E : rnd (inject_Z (2 ^ 64 - 2048)) == inject_Z (2 ^ 64 - 2048)).
  { apply (rnd_exact (2 ^ 53 - 1) 11); [lia|lia|]. vm_compute. reflexivity. }
  rewrite <- E. apply rnd_mono. exact H.
Qed.

Lemma ub_lemma t w p b u f : written t w p b u -> unit_named u f -> to_bytes t = UB ->
  (f <= 1024)%Z /\ inject_Z (2 ^ 64 - 2 ^ 14) <= amount w p * inject_Z f /\ amount w p * inject_Z f <= inject_Z (2 ^ 64 + 2 ^ 14).
Proof.
  intros W U E. pose proof (unit_named_bounds _ _ U) as F. pose proof (amount_nonneg w p) as NN.
  pose proof E as E0. rewrite (to_bytes_eq _ _ _ _ _ _ W U) in E.
  destruct (stod (amount w p)) as [x|] eqn:S; [|discriminate]. pose proof (stod_some _ _ S) as X. subst x.
  destruct (Qle_bool (rnd (amount w p)) (of_u64 (u64_max / f))) eqn:C; cbn [negb] in E; [|discriminate]. apply Qle_bool_iff in C.
  assert (F0 : 0 <= inject_Z f) by (change 0 with (inject_Z 0); apply inject_le; lia).
  assert (BIG : inject_Z (2 ^ 64) <= rnd (rnd (amount w p) * of_u64 f)).
  { destruct (Qlt_le_dec (rnd (rnd (amount w p) * of_u64 f)) (inject_Z (2 ^ 64))) as [L|L]; [|exact L]. rewrite (to_u64_some _ L) in E. discriminate. }
  split.
  { destruct U as (nm & SZ & _). apply unit_size_iff in SZ. pose proof limit_table as LT. rewrite forallb_forall in LT. specialize (LT _ SZ). cbn beta iota in LT.
    apply orb_true_iff in LT. destruct LT as [LT|LT]; [apply Z.leb_le; exact LT|exfalso]. apply andb_true_iff in LT. destruct LT as [L1 L2]. apply Z.leb_le in L1, L2.
    assert (PL : (0 <= u64_max / f)%Z) by (apply Z.div_pos; unfold u64_max; lia).
    unfold of_u64 in C. rewrite rnd_Z in C by (unfold u64_max in *; lia).
    assert (R : rnd (rnd (amount w p) * of_u64 f) < inject_Z (2 ^ 64)); [|lra]. apply rnd_below. rewrite (of_u64_unit f F).
    apply Qle_trans with (inject_Z (u64_max / f) * inject_Z f); [apply Qmult_le_compat_r; [exact C|exact F0]|]. rewrite <- inject_Z_mult. apply inject_le. exact L2. }
  assert (V1 : 1 <= amount w p).
  { destruct (Qlt_le_dec (amount w p) 1) as [L|L]; [|exact L]. exfalso.
    assert (R1 : rnd (amount w p) <= 1) by (apply (rnd_le_Z _ 1); [lia|change (inject_Z 1) with 1; lra]).
    assert (R2 : rnd (rnd (amount w p) * of_u64 f) < inject_Z (2 ^ 64)); [|lra]. apply rnd_below. rewrite (of_u64_unit f F).
    apply Qle_trans with (1 * inject_Z f); [apply Qmult_le_compat_r; [exact R1|exact F0]|]. rewrite Qmult_1_l. apply inject_le. lia. }
  assert (T : not_tiny (amount w p)). { right. apply Qle_trans with 1; [|exact V1]. change 1 with (2 ^ 0). apply two_le. lia. }
  split.
  - destruct (Qlt_le_dec (amount w p * inject_Z f) (inject_Z (2 ^ 64 - 2 ^ 14))) as [L|L]; [|exact L]. exfalso.
    destruct (product_bounds _ f NN T ltac:(lia)) as [_ B]. rewrite <- (rnd_prod _ _ F) in B.
    change (inject_Z (2 ^ 64 - 2 ^ 14)) with (18446744073709535232 # 1) in L. change (inject_Z (2 ^ 64)) with (18446744073709551616 # 1) in BIG. lra.
  - destruct (Qlt_le_dec (inject_Z (2 ^ 64 + 2 ^ 14)) (amount w p * inject_Z f)) as [L|L]; [|exact L]. exfalso.
    assert (LE : amount w p < 2 ^ 1023).
    { destruct (Qlt_le_dec (amount w p) (2 ^ 1023)) as [G|G]; [exact G|]. exfalso. assert (M : rnd (2 ^ 1023) <= rnd (amount w p)) by (apply rnd_mono; exact G). rewrite rnd_big in M.
      assert (L64 : of_u64 (u64_max / f) <= 2 ^ 64). { assert (R : rnd (2 ^ 64) == 2 ^ 64) by (apply (rnd_exact 1 64); [lia|lia|reflexivity]). rewrite <- R. apply rnd_mono.
        change (2 ^ 64) with (inject_Z (2 ^ 64)). apply inject_le. apply Z.div_le_upper_bound; [lia|]. unfold u64_max. nia. }
      assert (P : 2 ^ 64 < 2 ^ 1023) by (apply Qpower_lt_compat_l; [lia|reflexivity]). lra. }
    rewrite (large_lemma _ _ _ _ _ _ W U ltac:(lra) LE) in E0. discriminate.
Qed.

(** * Printing *)
Definition names : list str := [s "B"; s "KB"; s "MB"; s "GB"; s "TB"; s "PB"].

Lemma unit_before_ok n : (1 <= n)%Z -> exists i u, nth_error names i = Some u /\ unit_before n (0%Z, []) print_units = ((1000 ^ Z.of_nat i)%Z, u) /\
  (1000 ^ Z.of_nat i <= n)%Z /\ (i = 5%nat \/ (n < 1000 ^ Z.of_nat (S i))%Z).
Proof.
  intro H. unfold print_units. cbn [unit_before fst].
  replace (n <? 1)%Z with false by lia.
  destruct (n <? 1000)%Z eqn:E1. { exists 0%nat, (s "B"). repeat split; [exact H|right; cbn; lia]. }
  destruct (n <? 1000 * 1000)%Z eqn:E2. { exists 1%nat, (s "KB"). repeat split; [cbn; lia|right; cbn; lia]. }
  destruct (n <? 1000 * 1000 * 1000)%Z eqn:E3. { exists 2%nat, (s "MB"). repeat split; [cbn; lia|right; cbn; lia]. }
  destruct (n <? 1000 * 1000 * 1000 * 1000)%Z eqn:E4. { exists 3%nat, (s "GB"). repeat split; [cbn; lia|right; cbn; lia]. }
  destruct (n <? 1000 * 1000 * 1000 * 1000 * 1000)%Z eqn:E5. { exists 4%nat, (s "TB"). repeat split; [cbn; lia|right; cbn; lia]. }
  exists 5%nat, (s "PB"). repeat split; [cbn; lia|left; reflexivity].
Qed.

Lemma name_size i u : nth_error names i = Some u -> unit_size u (1000 ^ Z.of_nat i).
Proof.
  intro H. apply unit_size_iff. do 6 (destruct i as [|i]; [injection H as <-; cbn; tauto|]). destruct i; discriminate.
Qed.

Lemma decimal_index u f : unit_size u f -> (exists i, f = (1000 ^ i)%Z /\ (0 <= i)%Z) -> exists i, nth_error names i = Some u /\ f = (1000 ^ Z.of_nat i)%Z.
Proof.
  intros S [j [F J]]. apply unit_size_iff in S. cbn in S.
  assert (P : (f = 1 \/ exists k, f = 1000 * k)%Z).
  { destruct (Z.eq_dec j 0) as [->|N]; [left; exact F|right]. exists (1000 ^ (j - 1))%Z. rewrite F. rewrite <- Z.pow_succ_r by lia. f_equal. lia. }
  clear F j J. repeat (destruct S as [S|S]); try contradiction; injection S as <- <-.
  all: match goal with |- exists i, _ = Some ?v /\ _ => first
     [ (exists 0%nat; split; reflexivity) | (exists 1%nat; split; reflexivity) | (exists 2%nat; split; reflexivity) | (exists 3%nat; split; reflexivity) | (exists 4%nat; split; reflexivity) | (exists 5%nat; split; reflexivity)
     | exfalso; destruct P as [P|[k P]]; lia ] end.
Qed.

Lemma best_index n i u : nth_error names i = Some u -> (1000 ^ Z.of_nat i <= n)%Z -> (i = 5%nat \/ (n < 1000 ^ Z.of_nat (S i))%Z) -> best_unit n u (1000 ^ Z.of_nat i).
Proof.
  intros N L B. split; [exact (name_size _ _ N)|]. split; [exists (Z.of_nat i); split; [reflexivity|lia]|]. split; [exact L|].
  intros u' f' SZ D L'. destruct (decimal_index _ _ SZ D) as (j & NJ & ->). apply Z.pow_le_mono_r; [lia|].
  destruct (Z_le_gt_dec (Z.of_nat j) (Z.of_nat i)) as [G|G]; [exact G|exfalso]. destruct B as [->|B].
  - assert (j < 6)%nat by (change 6%nat with (List.length names); apply nth_error_Some; rewrite NJ; discriminate). lia.
  - assert (1000 ^ Z.of_nat (S i) <= 1000 ^ Z.of_nat j)%Z by (apply Z.pow_le_mono_r; lia). lia.
Qed.

Lemma best_unique n u f u' f' : best_unit n u f -> best_unit n u' f' -> f = f' /\ u = u'.
Proof.
  intros (S & D & L & M) (S' & D' & L' & M'). assert (E : f = f') by (apply Z.le_antisymm; [exact (M' _ _ S D L)|exact (M _ _ S' D' L')]). split; [exact E|]. subst f'.
  destruct (decimal_index _ _ S D) as (i & N & E). destruct (decimal_index _ _ S' D') as (j & N' & E'). rewrite E in E'. apply Z.pow_inj_r in E'; [|lia..].
  apply Nat2Z.inj in E'. subst j. rewrite N in N'. injection N' as ->. reflexivity.
Qed.

Lemma pow_bound i : (i <= 5)%nat -> (1 <= 1000 ^ Z.of_nat i <= 2 ^ 50)%Z.
Proof. intro H. do 6 (destruct i as [|i]; [vm_compute; split; discriminate|]). lia. Qed.
Lemma names_bound i u : nth_error names i = Some u -> (i <= 5)%nat.
Proof. intro H. assert (i < 6)%nat by (change 6%nat with (List.length names); apply nth_error_Some; rewrite H; discriminate). lia. Qed.

(** the quotient *)
Definition quotient (n f : Z) : Q := rnd (of_u64 n / of_u64 f).

Lemma quotient_eq n f : (1 <= f <= 2 ^ 50)%Z -> quotient n f == rnd (rnd (inject_Z n) / inject_Z f).
Proof. intro F. unfold quotient. apply rnd_comp. rewrite (of_u64_unit f F). reflexivity. Qed.

Lemma tiny_1 v : 1 <= v -> not_tiny v.
Proof. intro H. right. apply Qle_trans with 1; [change 1 with (2 ^ 0); apply two_le; lia|exact H]. Qed.

Lemma quotient_bounds n f : (1 <= f <= 2 ^ 50)%Z -> (f <= n)%Z ->
  inject_Z n / inject_Z f * (1 - (1 # 2251799813685248)) <= quotient n f /\ quotient n f <= inject_Z n / inject_Z f * (1 + (1 # 2251799813685248)).
Proof.
  intros F L. assert (F0 : 0 < inject_Z f) by (change 0 with (inject_Z 0); apply inject_lt; lia).
  assert (N1 : 1 <= inject_Z n) by (change 1 with (inject_Z 1); apply inject_le; lia).
  destruct (number_bounds (inject_Z n) ltac:(lra) (tiny_1 _ N1)) as [A B].
  set (r := inject_Z n / inject_Z f). assert (R : 1 <= r). { unfold r. apply Qle_shift_div_l; [exact F0|]. rewrite Qmult_1_l. apply inject_le. exact L. }
  assert (RN : inject_Z n == r * inject_Z f) by (unfold r; field; lra).
  set (y := rnd (inject_Z n) / inject_Z f).
  assert (Y1 : r * (1 - (1 # 9007199254740992)) <= y). { unfold y. apply Qle_shift_div_l; [exact F0|]. apply Qle_trans with (2 := A). rewrite RN. lra. }
  assert (Y2 : y <= r * (1 + (1 # 9007199254740992))). { unfold y. apply Qle_shift_div_r; [exact F0|]. apply Qle_trans with (1 := B). rewrite RN. lra. }
  assert (YT : not_tiny y). { right. apply Qle_trans with (1 # 2); [change (1 # 2) with (2 ^ (-1)); apply two_le; lia|]. lra. }
  destruct (number_bounds y ltac:(lra) YT) as [C D]. rewrite (quotient_eq n f F). fold y. clearbody y r.
  generalize dependent (rnd y). intros z C D. split; lra.
Qed.

Lemma from_bytes_eq n : (1 <= n)%Z -> exists i u, nth_error names i = Some u /\ best_unit n u (1000 ^ Z.of_nat i) /\ (i = 5%nat \/ (n < 1000 ^ Z.of_nat (S i))%Z) /\
  from_bytes n = (if negb (Qle_bool (rnd (1 # 100)) (rnd (quotient n (1000 ^ Z.of_nat i) - of_u64 (Qfloor (quotient n (1000 ^ Z.of_nat i))))))
                  then dec (Z.to_N (Qfloor (quotient n (1000 ^ Z.of_nat i)))) else fixed2 (quotient n (1000 ^ Z.of_nat i))) ++ u.
Proof.
  intro H. destruct (unit_before_ok n H) as (i & u & N & E & L & B). exists i, u. split; [exact N|]. split; [exact (best_index _ _ _ N L B)|]. split; [exact B|].
  unfold from_bytes. replace (n =? 0)%Z with false by lia. rewrite E. reflexivity.
Qed.

Lemma ratio_small n i : (i <= 5)%nat -> (n < 2 ^ 64)%Z -> (i = 5%nat \/ (n < 1000 ^ Z.of_nat (S i))%Z) -> inject_Z n / inject_Z (1000 ^ Z.of_nat i) <= 18447.
Proof.
  intros I N B. pose proof (pow_bound i I) as P. apply Qle_shift_div_r; [change 0 with (inject_Z 0); apply inject_lt; lia|].
  change 18447 with (inject_Z 18447). rewrite <- inject_Z_mult. apply inject_le. destruct B as [->|B]; [cbn; lia|].
  rewrite Nat2Z.inj_succ, Z.pow_succ_r in B by lia. lia.
Qed.

(** digits *)
Lemma dec_digits n : Forall is_digit (dec n) /\ dec n <> [] /\ number_of (dec n) = n.
Proof. destruct (dec_decimal n) as (A & B & C & _). repeat split; assumption. Qed.

Lemma digit_ok n : (n < 10)%N -> is_digit (digit n) /\ digit_value (digit n) = n.
Proof. intro H. unfold digit, is_digit, digit_value. rewrite N_ascii_embedding by lia. lia. Qed.

Lemma number_of_app a c : number_of (a ++ [c]) = (10 * number_of a + digit_value c)%N.
Proof. unfold number_of. rewrite fold_left_app. reflexivity. Qed.

Lemma hundreds n : number_of (dec (n / 100) ++ [digit ((n / 10) mod 10); digit (n mod 10)]) = n.
Proof.
  change [digit ((n / 10) mod 10); digit (n mod 10)] with ([digit ((n / 10) mod 10)] ++ [digit (n mod 10)]). rewrite app_assoc, !number_of_app.
  destruct (dec_digits (n / 100)) as (_ & _ & ->). rewrite !(fun k H => proj2 (digit_ok k H)) by (apply N.mod_lt; discriminate).
  pose proof (N.div_mod n 10 ltac:(discriminate)) as D. pose proof (N.div_mod (n / 10) 10 ltac:(discriminate)) as D2. rewrite N.div_div in D2 by discriminate. change (10 * 10)%N with 100%N in D2. lia.
Qed.

Lemma name_letters i u : nth_error names i = Some u -> u <> [] /\ Forall is_letter u.
Proof.
  intro H. split; [|exact (unit_letters _ _ (name_size _ _ H))]. do 6 (destruct i as [|i]; [injection H as <-; discriminate|]). destruct i; discriminate.
Qed.

Lemma printed_lemma n : (0 < n < 2 ^ 64)%Z -> exists whole part unit f,
  written (from_bytes n) whole part [] unit /\ best_unit n unit f /\
  ((part = [] /\ Qabs (amount whole part - inject_Z n / inject_Z f) <= 1 # 99) \/
   (List.length part = 2%nat /\ Qabs (amount whole part - inject_Z n / inject_Z f) <= 1 # 199)).
Proof.
  intro H. destruct (from_bytes_eq n ltac:(lia)) as (i & u & N & BU & B & E). pose proof (names_bound _ _ N) as I. pose proof (pow_bound i I) as F.
  pose proof BU as (_ & _ & L & _). destruct (quotient_bounds n _ F L) as [Q1 Q2].
  pose proof (ratio_small n i I ltac:(lia) B) as RS. destruct (name_letters _ _ N) as [NU LU].
  assert (R1 : 1 <= inject_Z n / inject_Z (1000 ^ Z.of_nat i)). { apply Qle_shift_div_l; [change 0 with (inject_Z 0); apply inject_lt; lia|]. rewrite Qmult_1_l. apply inject_le. exact L. }
  set (r := inject_Z n / inject_Z (1000 ^ Z.of_nat i)) in *. set (x := quotient n (1000 ^ Z.of_nat i)) in *.
  assert (X1 : r - (1 # 1000000) <= x) by lra. assert (X2 : x <= r + (1 # 1000000)) by lra. clear Q1 Q2.
  destruct (floor_bounds x) as [K1 K2]. set (k := Qfloor x) in *.
  assert (K0 : (0 <= k)%Z). { change 0%Z with (Qfloor 0). apply Qfloor_resp_le. lra. }
  assert (KS : (k <= 18448)%Z). { apply inject_le. change (inject_Z 18448) with 18448. lra. }
  destruct (Qle_bool (rnd (1 # 100)) (rnd (x - of_u64 k))) eqn:C; cbn [negb] in E.
  - set (m := nearest (x * 100)) in *. pose proof (nearest_err (x * 100)) as NE. fold m in NE. apply Qabs_Qle_condition in NE.
    assert (M0 : (0 <= m)%Z). { apply nearest_ge. change (inject_Z 0) with 0. lra. }
    exists (dec (Z.to_N m / 100)), [digit ((Z.to_N m / 10) mod 10); digit (Z.to_N m mod 10)], u, (1000 ^ Z.of_nat i)%Z.
    destruct (dec_digits (Z.to_N m / 100)) as (D1 & D2 & _).
    split; [|split; [exact BU|right; split; [reflexivity|]]].
    + rewrite E. unfold fixed2. cbn zeta. fold m. unfold written. rewrite <- app_assoc. split; [reflexivity|]. split; [exact D2|]. split; [exact D1|].
      split; [repeat constructor; apply digit_ok; apply N.mod_lt; discriminate|]. split; [constructor|]. split; assumption.
    + unfold amount. rewrite hundreds. rewrite Z2N.id by exact M0. cbn [List.length]. change (inject_Z m / inject_Z (10 ^ Z.of_nat 2)) with (inject_Z m * (1 # 100)). apply Qabs_Qle_condition. fold r. split; lra.
  - assert (D : x - of_u64 k < 1 # 100). { destruct (Qlt_le_dec (x - of_u64 k) (1 # 100)) as [G|G]; [exact G|]. exfalso. assert (M := rnd_mono _ _ G). apply Qle_bool_iff in M. rewrite C in M. discriminate. }
    unfold of_u64 in D. rewrite rnd_Z in D by lia. exists (dec (Z.to_N k)), [], u, (1000 ^ Z.of_nat i)%Z. destruct (dec_digits (Z.to_N k)) as (D1 & D2 & D3).
    split; [|split; [exact BU|left; split; [reflexivity|]]].
    + rewrite E. unfold written. split; [reflexivity|]. split; [exact D2|]. split; [exact D1|]. split; [constructor|]. split; [constructor|]. split; assumption.
    + unfold amount. rewrite app_nil_r, D3, Z2N.id by exact K0. change (inject_Z (10 ^ Z.of_nat (List.length []))) with 1. apply Qabs_Qle_condition. fold r.
      assert (Q1 : inject_Z k / 1 == inject_Z k) by field. rewrite Q1. split; lra.
Qed.

(** exact multiples *)
Lemma pow_split i : (1000 ^ Z.of_nat i = 125 ^ Z.of_nat i * 2 ^ (3 * Z.of_nat i))%Z.
Proof. rewrite Z.pow_mul_r by lia. rewrite <- Z.pow_mul_l. reflexivity. Qed.

Lemma multiple_precise n i q : (i <= 5)%nat -> (0 <= q)%Z -> (n = q * 1000 ^ Z.of_nat i)%Z -> (n < 2 ^ 64)%Z -> (i = 5%nat \/ (n < 1000 ^ Z.of_nat (S i))%Z) ->
  precise (inject_Z n) /\ (q <= 18446)%Z.
Proof.
  intros I Q E N B. pose proof (pow_bound i I) as P.
  assert (QS : (q <= 18446)%Z).
  { destruct B as [->|B]; [cbn in E; lia|]. rewrite Nat2Z.inj_succ, Z.pow_succ_r in B by lia. nia. }
  split; [|exact QS]. exists (q * 125 ^ Z.of_nat i)%Z, (3 * Z.of_nat i)%Z. split; [|split; [lia|]].
  - assert (P5 : (1 <= 125 ^ Z.of_nat i <= 2 ^ 35)%Z) by (clear - I; do 6 (destruct i as [|i]; [vm_compute; split; discriminate|]); lia). nia.
  - rewrite E, pow_split, two_Z by lia. rewrite <- inject_Z_mult. rewrite Z.mul_assoc. reflexivity.
Qed.

Lemma multiple_lemma n u f q : (0 < n < 2 ^ 64)%Z -> best_unit n u f -> (n = q * f)%Z -> from_bytes n = dec (Z.to_N q) ++ u.
Proof.
  intros H BU E. destruct (from_bytes_eq n ltac:(lia)) as (i & u' & N & BU' & B & FB). destruct (best_unique _ _ _ _ _ BU BU') as [-> ->].
  pose proof (names_bound _ _ N) as I. pose proof (pow_bound i I) as F. assert (Q0 : (0 <= q)%Z) by nia.
  destruct (multiple_precise n i q I Q0 E ltac:(lia) B) as [P QS].
  assert (X : quotient n (1000 ^ Z.of_nat i) == inject_Z q).
  { rewrite (quotient_eq _ _ F). rewrite <- (rnd_Z q) by lia. apply rnd_comp. rewrite (precise_rnd _ P). rewrite E, inject_Z_mult. field. assert (F1 : 0 < inject_Z (1000 ^ Z.of_nat i)) by (change 0 with (inject_Z 0); apply inject_lt; lia). lra. }
  rewrite FB. rewrite (floor_comp _ _ X), Qfloor_Z.
  assert (D : rnd (quotient n (1000 ^ Z.of_nat i) - of_u64 q) == 0). { rewrite <- rnd_0. apply rnd_comp. rewrite X. unfold of_u64. rewrite rnd_Z by lia. ring. }
  replace (Qle_bool (rnd (1 # 100)) (rnd (quotient n (1000 ^ Z.of_nat i) - of_u64 q))) with false; [reflexivity|].
  symmetry. apply not_true_is_false. intro C. apply Qle_bool_iff in C. rewrite D in C. vm_compute in C. exfalso. apply C. reflexivity.
Qed.

Lemma named_self u f : unit_size u f -> unit_named u f.
Proof.
  intro S. exists u. split; [exact S|]. clear S. induction u as [|c u IH]; constructor; [left; reflexivity|exact IH].
Qed.

(** reading back what was printed *)
Lemma round_trip_lemma n u f : (0 <= n < 2 ^ 64)%Z -> n = 0%Z \/ (best_unit n u f /\ (f | n)%Z) -> to_bytes (from_bytes n) = Ret n.
Proof.
  intros H [->|[BU [q E]]]; [vm_compute; reflexivity|].
  assert (N0 : (0 < n)%Z). { destruct (Z.eq_dec n 0) as [->|D]; [|lia]. destruct BU as (S & _ & L & _). pose proof (unit_named_bounds _ _ (named_self _ _ S)). lia. }
  rewrite (multiple_lemma n u f q ltac:(lia) BU E).
  destruct (from_bytes_eq n ltac:(lia)) as (i & u' & N & BU' & B & FB). destruct (best_unique _ _ _ _ _ BU BU') as [-> ->].
  pose proof (names_bound _ _ N) as I. pose proof (pow_bound i I) as F. assert (Q0 : (0 <= q)%Z) by nia.
  destruct (multiple_precise n i q I Q0 E ltac:(lia) B) as [P QS]. destruct (dec_digits (Z.to_N q)) as (D1 & D2 & D3). destruct (name_letters _ _ N) as [NU LU].
  assert (A : amount (dec (Z.to_N q)) [] == inject_Z q). { unfold amount. rewrite app_nil_r, D3, Z2N.id by exact Q0. change (inject_Z (10 ^ Z.of_nat (List.length []))) with 1. field. }
  apply (exact_lemma _ (dec (Z.to_N q)) [] [] u' (1000 ^ Z.of_nat i)).
  - unfold written. split; [reflexivity|]. split; [exact D2|]. split; [exact D1|]. split; [constructor|]. split; [constructor|]. split; assumption.
  - apply named_self. exact (name_size _ _ N).
  - exists q, 0%Z. split; [lia|]. split; [lia|]. rewrite A. change (2 ^ 0) with 1. ring.
  - rewrite A. apply inject_le. apply Z.div_le_lower_bound; [lia|]. lia.
  - rewrite A, <- inject_Z_mult. rewrite <- E. reflexivity.
  - exact P.
Qed.

Lemma round_trip_near_lemma n u f : (0 < n <= 18445 * 1000 ^ 5)%Z -> best_unit n u f ->
  exists m, to_bytes (from_bytes n) = Ret m /\ Qabs (inject_Z m - inject_Z n) <= inject_Z f * (1 # 98) + 1.
Proof.
  intros H BU. destruct (printed_lemma n ltac:(lia)) as (w & p & u' & f' & W & BU' & A). destruct (best_unique _ _ _ _ _ BU BU') as [<- <-].
  assert (A' : Qabs (amount w p - inject_Z n / inject_Z f) <= 1 # 99) by (destruct A as [[_ A]|[_ A]]; [exact A|lra]). clear A. apply Qabs_Qle_condition in A'.
  pose proof BU as (S & _ & L & _). pose proof (named_self _ _ S) as U. pose proof (unit_named_bounds _ _ U) as F.
  destruct (from_bytes_eq n ltac:(lia)) as (i & u' & N & BU2 & B & _). destruct (best_unique _ _ _ _ _ BU BU2) as [-> ->]. pose proof (names_bound _ _ N) as I.
  set (f := (1000 ^ Z.of_nat i)%Z) in *. assert (F0 : 0 < inject_Z f) by (change 0 with (inject_Z 0); apply inject_lt; lia).
  set (r := inject_Z n / inject_Z f) in *. assert (RN : inject_Z n == r * inject_Z f) by (unfold r; field; lra).
  assert (R1 : 1 <= r). { unfold r. apply Qle_shift_div_l; [exact F0|]. rewrite Qmult_1_l. apply inject_le. exact L. }
  set (v := amount w p) in *.
  assert (V1 : v * inject_Z f <= inject_Z n + inject_Z f * (1 # 99)). { rewrite RN. assert (V : v <= r + (1 # 99)) by lra. apply (Qmult_le_compat_r _ _ (inject_Z f)) in V; [|lra]. lra. }
  assert (V2 : inject_Z n - inject_Z f * (1 # 99) <= v * inject_Z f). { rewrite RN. assert (V : r - (1 # 99) <= v) by lra. apply (Qmult_le_compat_r _ _ (inject_Z f)) in V; [|lra]. lra. }
  assert (N18 : inject_Z n <= 18445000000000000000) by (change 18445000000000000000 with (inject_Z (18445 * 1000 ^ 5)); apply inject_le; lia).
  assert (F15 : inject_Z f <= 1000000000000000). { change 1000000000000000 with (inject_Z (1000 ^ 5)). apply inject_le. unfold f. apply Z.pow_le_mono_r; lia. }
  assert (RS : r <= 18445).
  { unfold r. apply Qle_shift_div_r; [exact F0|]. change 18445 with (inject_Z 18445). rewrite <- inject_Z_mult. apply inject_le. destruct B as [->|B]; [exact (proj2 H)|].
    rewrite Nat2Z.inj_succ, Z.pow_succ_r in B by lia. fold f in B. lia. }
  assert (LIM : (18446 <= (2 ^ 64 - 1) / f)%Z). { apply Z.div_le_lower_bound; [lia|]. assert (f <= 1000 ^ 5)%Z by (unfold f; apply Z.pow_le_mono_r; lia). lia. }
  apply inject_le in LIM. change (inject_Z 18446) with 18446 in LIM.
  assert (NF : inject_Z n <= 18445 * inject_Z f) by (rewrite RN; apply Qmult_le_compat_r; [exact RS|lra]).
  destruct (near_lemma (from_bytes n) w p [] u' f W U) as (m & E & M1 & M2); fold v.
  - right. apply Qle_trans with (1 # 2); [change (1 # 2) with (2 ^ (-1)); apply two_le; lia|]. lra.
  - lra.
  - change (inject_Z (2 ^ 64 - 2 ^ 14)) with (18446744073709535232 # 1). lra.
  - fold v in M1, M2. change (1 # 2 ^ 52) with (1 # 4503599627370496) in M1. change (1 # 2 ^ 51) with (1 # 2251799813685248) in M2.
    exists m. split; [exact E|]. apply Qabs_Qle_condition. split; lra.
Qed.

(** * Concrete texts *)
Lemma written_ok t w p b u :
  str_eqb t (w ++ (match p with [] => [] | _ => "."%char :: p end) ++ b ++ u) && negb (is_nil w) && forallb digit_class w && forallb digit_class p &&
  forallb space_class b && negb (is_nil u) && forallb alpha_class u = true -> written t w p b u.
Proof.
  intro H. rewrite !andb_true_iff in H. destruct H as ((((((H1 & H2) & H3) & H4) & H5) & H6) & H7). unfold written.
  split; [apply str_eqb_eq; exact H1|]. split; [intros ->; discriminate|].
  split; [apply Forall_forall; rewrite forallb_forall in H3; intros c X; apply digit_class_iff; exact (H3 c X)|].
  split; [apply Forall_forall; rewrite forallb_forall in H4; intros c X; apply digit_class_iff; exact (H4 c X)|].
  split; [apply Forall_forall; rewrite forallb_forall in H5; intros c X; apply space_class_iff; exact (H5 c X)|].
  split; [intros ->; discriminate|]. exact (letters_dec _ H7).
Qed.

Lemma named_ok u f : find_unit units (to_uppercase u) = Some f -> forallb alpha_class u = true -> unit_named u f.
Proof. intros H L. apply find_unit_named; [exact (letters_dec _ L)|exact H]. Qed.

Lemma unknown_ok u : find_unit units (to_uppercase u) = None -> forallb alpha_class u = true -> forall f, ~ unit_named u f.
Proof. intros H L f U. apply find_unit_named in U; [|exact (letters_dec _ L)]. rewrite H in U. discriminate. Qed.

Lemma malformed_ok t : match_quantity t = None -> ~ well_formed t.
Proof. intros H (w & p & b & u & W). rewrite (match_ok _ _ _ _ _ W) in H. discriminate. Qed.

Lemma best_ok n u f i : nth_error names i = Some u -> (f = 1000 ^ Z.of_nat i)%Z -> (f <= n)%Z -> (i = 5%nat \/ (n < 1000 ^ Z.of_nat (S i))%Z) -> best_unit n u f.
Proof. intros N -> L B. exact (best_index n i u N L B). Qed.

Lemma multiple_decimal n u f q text : (0 < n < 2 ^ 64)%Z -> best_unit n u f -> (n = q * f)%Z -> decimal (Z.to_N q) text -> from_bytes n = text ++ u.
Proof. intros H B E D. rewrite (multiple_lemma n u f q H B E). rewrite (decimal_unique _ _ _ (dec_decimal _) D). reflexivity. Qed.
