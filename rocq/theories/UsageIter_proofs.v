(** The iterator goes through the rows, cells and lines of the help texts. *)
From Verif Require Import Usage_spec.
From Coq Require Import ZifyBool ZifyNat ZifyN.
Local Open Scope nat_scope.

Ltac sf := cbn [tablestart rowdesc rowstart ptr col len screenlen max_line line target hit] in *.

(** ** characters *)
Lemma decode_le ch p : snd (decode ch p) <= length p.
Proof. revert ch. induction p as [|c p IH]; intro ch; [cbn; lia|]. cbn [decode]. destruct (continuation c); [|cbn; lia]. cbn [snd length]. specialize (IH (N.lxor (N.lxor ((N.shiftl ch 6) mod 2 ^ 32) (code c)) 0x80)%N). lia. Qed.
Lemma one_char_le c p : 1 <= fst (one_char c p) <= S (length p).
Proof. unfold one_char. destruct (0xC1 <? code c)%N; [|cbn; lia]. cbn [fst]. pose proof (decode_le (N.land (code c) (mask (code c))) p). lia. Qed.

Lemma decode_app ch a x b : continuation x = false -> decode ch (a ++ x :: b) = decode ch a.
Proof. revert ch. induction a as [|c a IH]; intros ch H; cbn [app decode]; [rewrite H; reflexivity|]. destruct (continuation c); [|reflexivity]. rewrite IH by exact H. reflexivity. Qed.
Lemma one_char_app c a x b : continuation x = false -> one_char c (a ++ x :: b) = one_char c a.
Proof. intro H. unfold one_char. rewrite (decode_app _ a x b H). reflexivity. Qed.

(** the characters read by [decode] are not separators *)
Lemma ends_not_continuation c : ends_part c = true -> continuation c = false.
Proof. unfold ends_part. rewrite !orb_true_iff. intros [[[E|E]|E]|E]; apply Ascii.eqb_eq in E; subst; reflexivity. Qed.

(** the part at [p] *)
Fixpoint part_text (p : str) : str := match p with [] => [] | c :: p' => if ends_part c then [] else c :: part_text p' end.
Lemma part_split p : exists b, p = part_text p ++ b /\ ends_part (at_ b) = true.
Proof. induction p as [|c p (b & IH & E)]; [exists []; split; reflexivity|]. cbn [part_text]. destruct (ends_part c) eqn:F; [exists (c :: p); split; [reflexivity|exact F]|]. exists b. split; [cbn; congruence|exact E]. Qed.
Lemma part_text_no p c : In c (part_text p) -> ends_part c = false.
Proof. induction p as [|x p IH]; [intros []|]. cbn [part_text]. destruct (ends_part x) eqn:E; [intros []|]. intros [<-|H]; [exact E|exact (IH H)]. Qed.
Lemma part_text_app a b : (forall c, In c a -> ends_part c = false) -> ends_part (at_ b) = true -> part_text (a ++ b) = a.
Proof.
  intros H E. induction a as [|c a IH]; cbn [app part_text].
  - destruct b as [|x b]; [reflexivity|]. cbn in E |- *. rewrite E. reflexivity.
  - rewrite (H c) by (left; reflexivity). f_equal. apply IH. intros x I. apply H. right. exact I.
Qed.
Lemma skipn_part p : exists b, skipn (length (part_text p)) p = b /\ p = part_text p ++ b /\ ends_part (at_ b) = true.
Proof. destruct (part_split p) as (b & E & F). exists b. split; [|auto]. rewrite E at 2. rewrite skipn_app, skipn_all, Nat.sub_diag. reflexivity. Qed.
Lemma firstn_part p : firstn (length (part_text p)) p = part_text p.
Proof. destruct (part_split p) as (b & E & _). rewrite E at 2. rewrite firstn_app, firstn_all, Nat.sub_diag. cbn. apply app_nil_r. Qed.

Lemma columns_skip n t : n <= length t -> columns_after n t = columns_after 0 (skipn n t).
Proof. revert t. induction n as [|n IH]; intros t H; [reflexivity|]. destruct t as [|c t]; [cbn in H; lia|]. cbn [columns_after skipn]. apply IH. cbn in H. lia. Qed.

Lemma update_loop_eq fuel a b l w : length a < fuel -> (forall c, In c a -> ends_part c = false) -> ends_part (at_ b) = true -> ~ In byte_FF a ->
  update_loop fuel (a ++ b) l w = Ret (l + length a, w + columns_after 0 a).
Proof.
  revert a l w. induction fuel as [|fuel IH]; intros a l w L H E F; [lia|]. cbn [update_loop]. destruct a as [|c a].
  - cbn [app length columns_after]. destruct b as [|x b]; [f_equal; f_equal; lia|]. cbn in E. rewrite E. f_equal. f_equal; lia.
  - cbn [app]. rewrite (H c) by (left; reflexivity).
    assert (N : (code c =? 255)%N = false).
    { apply N.eqb_neq. intro K. apply F. left. unfold code in K. rewrite <- (ascii_N_embedding c), K. reflexivity. }
    rewrite N.
    assert (O : one_char c (a ++ b) = one_char c a).
    { destruct b as [|x b]; [rewrite app_nil_r; reflexivity|]. apply one_char_app. apply ends_not_continuation. exact E. }
    rewrite O. pose proof (one_char_le c a) as K. set (r := one_char c a) in *.
    destruct (fst r) as [|n] eqn:Er; [lia|].
    replace (skipn (S n) (c :: a ++ b)) with (skipn n a ++ b).
    + rewrite IH; [|rewrite skipn_length; cbn in L; lia|intros x I; apply H; right; rewrite <- (firstn_skipn n a); apply in_or_app; right; exact I|exact E|intro I; apply F; right; rewrite <- (firstn_skipn n a); apply in_or_app; right; exact I].
      f_equal. rewrite skipn_length. f_equal; [cbn [length]; lia|]. cbn [columns_after]. fold r. rewrite Er. rewrite (columns_skip (S n - 1)) by lia. replace (S n - 1) with n by lia. lia.
    + cbn [skipn]. rewrite skipn_app. replace (n - length a) with 0 by lia. reflexivity.
Qed.
Lemma update_eq p : ~ In byte_FF (part_text p) -> update_length p = Ret (length (part_text p), columns_after 0 (part_text p)).
Proof.
  intro F. unfold update_length. destruct (part_split p) as (b & E & G). rewrite E at 2.
  rewrite update_loop_eq; [reflexivity| | |exact G|exact F]; [|intros c; apply part_text_no]. rewrite E at 2. rewrite app_length. lia.
Qed.

(** ** one row: the text [t] followed by [z] *)
Inductive found := Found (r : str) (c mx l : nat) | Ended (c mx l : nat).
Fixpoint scan (r : str) (c mx l tg : nat) (h : bool) : found :=
  match r with
  | [] => if h then Ended c mx l else Found [] c mx l
  | x :: r' =>
    if Ascii.eqb x VT then let mx := Nat.max mx (S l) in if S l =? tg then Found r' c mx (S l) else scan r' c mx (S l) tg h
    else if Ascii.eqb x TAB then if negb h then Found r c mx l else if 0 =? tg then Found r' (S c) mx 0 else scan r' (S c) mx 0 tg false
    else scan r' c mx l tg h
  end.

Definition plain_row (t : str) : Prop := forall c, In c t -> Ascii.eqb c NUL = false /\ Ascii.eqb c NL = false /\ c <> byte_FF.
Definition row_end (z : str) : Prop := at_ z = NUL \/ at_ z = NL.

Lemma row_end_ends z : row_end z -> ends_part (at_ z) = true.
Proof. intros [->| ->]; reflexivity. Qed.

Lemma part_text_row r z c : row_end z -> In c (part_text (r ++ z)) -> In c r.
Proof.
  intro Z. induction r as [|x r IH]; cbn [app part_text].
  - apply row_end_ends in Z. destruct z as [|y z]; [intros []|]. cbn in Z |- *. rewrite Z. intros [].
  - destruct (ends_part x); [intros []|]. intros [<-|I]; [left; reflexivity|right; exact (IH I)].
Qed.

Lemma measured_eq i b r z c mx l t h : plain_row r -> row_end z ->
  measured i b (r ++ z) c mx l t h = Ret (b, set_part i (r ++ z) c (length (part_text (r ++ z))) (columns_after 0 (part_text (r ++ z))) mx l t h).
Proof.
  intros P Z. unfold measured. rewrite update_eq; [reflexivity|]. intro I. apply (part_text_row r z _ Z) in I. destruct (P _ I) as (_ & _ & N). exact (N eq_refl).
Qed.

Lemma next_loop_scan i start z (Z : row_end z) r : plain_row r -> forall f c mx l tg h, length r < f ->
  next_loop f i start (r ++ z) (Z.of_nat c) mx l tg h =
  match scan r c mx l tg h with
  | Found r' c' mx' l' => measured i true (r' ++ z) (Z.of_nat c') mx' l' tg true
  | Ended c' mx' l' => if mx' <? S tg then measured i false z (Z.of_nat c') mx' l' (S tg) true else next_loop (f - S (length r)) i start start 0%Z mx' 0 (S tg) false
  end.
Proof.
  induction r as [|x r IH]; intros P f c mx l tg h L; (destruct f as [|f]; [lia|]); cbn [next_loop].
  - cbn [app]. assert (E : Ascii.eqb (at_ z) VT = false /\ Ascii.eqb (at_ z) TAB = false /\ Ascii.eqb (at_ z) NUL || Ascii.eqb (at_ z) NL = true) by (destruct Z as [->| ->]; repeat split; reflexivity).
    destruct E as (-> & -> & ->). cbn [scan]. destruct h; cbn [negb]; [|reflexivity]. cbn [length]. replace (S f - 1) with f by lia. reflexivity.
  - cbn [app at_ tl length]. replace (S f - S (S (length r))) with (f - S (length r)) by lia.
    assert (P' : plain_row r) by (intros y I; apply P; right; exact I). assert (L' : length r < f) by (cbn in L; lia).
    destruct (P x (or_introl eq_refl)) as (N1 & N2 & _). cbn [scan]. destruct (Ascii.eqb x VT).
    + destruct (S l =? tg); [reflexivity|]. apply (IH P' f); exact L'.
    + destruct (Ascii.eqb x TAB).
      * destruct (negb h); [reflexivity|]. replace (Z.of_nat c + 1)%Z with (Z.of_nat (S c)) by lia. destruct (0 =? tg); [reflexivity|]. apply (IH P' f); exact L'.
      * rewrite N1, N2. cbn [orb]. apply (IH P' f); exact L'.
Qed.

(** the parts found after the current one, until the end of the row *)
Definition mk (z : str) (c tg : nat) (r : str) : part :=
  {| pcol := Z.of_nat c; pline := tg; pdata := part_text (r ++ z); pafter := at_ (skipn (length (part_text (r ++ z))) (r ++ z)); pscreen := columns (part_text (r ++ z)) |}.
Fixpoint collect (z r : str) (c l tg : nat) (h : bool) : list part :=
  match r with
  | [] => if h then [] else [mk z c tg []]
  | x :: r' =>
    if Ascii.eqb x VT then if S l =? tg then mk z c tg r' :: collect z r' c (S l) tg true else collect z r' c (S l) tg h
    else if Ascii.eqb x TAB then (if h then [] else [mk z c tg r]) ++ (if 0 =? tg then mk z (S c) tg r' :: collect z r' (S c) 0 tg true else collect z r' (S c) 0 tg false)
    else collect z r' c l tg h
  end.
Fixpoint peak (r : str) (l : nat) : nat :=
  match r with [] => 0 | x :: r' => if Ascii.eqb x VT then Nat.max (S l) (peak r' (S l)) else if Ascii.eqb x TAB then peak r' 0 else peak r' l end.

Lemma scan_collect z r : forall c mx l tg h,
  match scan r c mx l tg h with
  | Found r' c' mx' l' => collect z r c l tg h = mk z c' tg r' :: collect z r' c' l' tg true /\ Nat.max mx' (peak r' l') = Nat.max mx (peak r l) /\ (exists a, r = a ++ r')
  | Ended c' mx' l' => h = true /\ collect z r c l tg h = [] /\ mx' = Nat.max mx (peak r l)
  end.
Proof.
  induction r as [|x r IH]; intros c mx l tg h; cbn [scan collect peak].
  - destruct h; [repeat split; lia|]. split; [reflexivity|]. split; [reflexivity|]. exists []. reflexivity.
  - destruct (Ascii.eqb x VT) eqn:EV.
    + destruct (S l =? tg); [split; [reflexivity|]; split; [lia|exists [x]; reflexivity]|].
      specialize (IH c (Nat.max mx (S l)) (S l) tg h). destruct (scan r c (Nat.max mx (S l)) (S l) tg h) as [r' c' mx' l'|c' mx' l'].
      * destruct IH as (-> & E & a & ->). split; [reflexivity|]. split; [lia|]. exists (x :: a). reflexivity.
      * destruct IH as (-> & -> & ->). split; [reflexivity|]. split; [reflexivity|]. lia.
    + destruct (Ascii.eqb x TAB) eqn:ET.
      * destruct h; cbn [negb app].
        -- destruct (0 =? tg); [split; [reflexivity|]; split; [lia|exists [x]; reflexivity]|].
           specialize (IH (S c) mx 0 tg false). destruct (scan r (S c) mx 0 tg false) as [r' c' mx' l'|c' mx' l'].
           ++ destruct IH as (-> & E & a & ->). split; [reflexivity|]. split; [lia|]. exists (x :: a). reflexivity.
           ++ destruct IH as (X & _). discriminate X.
        -- split; [cbn [collect]; rewrite EV, ET; reflexivity|]. split; [cbn [peak]; rewrite EV, ET; reflexivity|]. exists []. reflexivity.
      * specialize (IH c mx l tg h). destruct (scan r c mx l tg h) as [r' c' mx' l'|c' mx' l']; [|exact IH].
        destruct IH as (-> & E & a & ->). split; [reflexivity|]. split; [exact E|]. exists (x :: a). reflexivity.
Qed.

Lemma scan_skip a b c mx l tg h : (forall x, In x a -> ends_part x = false) -> scan (a ++ b) c mx l tg h = scan b c mx l tg h.
Proof.
  intro H. induction a as [|x a IH]; [reflexivity|]. cbn [app scan]. assert (E := H x (or_introl eq_refl)). unfold ends_part in E. rewrite !orb_false_iff in E. destruct E as (((_ & ->) & ->) & _).
  apply IH. intros y I. apply H. right. exact I.
Qed.

Lemma plain_suffix a b : plain_row (a ++ b) -> plain_row b.
Proof. intros P c I. apply P. apply in_or_app. right. exact I. Qed.

Lemma rest_part r z : row_end z -> exists b, r = part_text (r ++ z) ++ b /\ skipn (length (part_text (r ++ z))) (r ++ z) = b ++ z.
Proof.
  intro Z. destruct (part_split (r ++ z)) as (b & E & G). induction r as [|x r IH].
  - exists []. cbn [app]. apply row_end_ends in Z. destruct z as [|y z]; [split; reflexivity|]. cbn in Z. cbn [part_text]. rewrite Z. split; reflexivity.
  - cbn [app part_text] in *. destruct (ends_part x) eqn:F; [exists (x :: r); split; reflexivity|]. destruct IH as (b' & E' & S').
    + injection E as E. exact E.
    + exists b'. cbn [app length skipn]. split; [congruence|exact S'].
Qed.

Definition at_part (i : iter) (z r : str) (c mx l tg : nat) : iter :=
  set_part i (r ++ z) (Z.of_nat c) (length (part_text (r ++ z))) (columns_after 0 (part_text (r ++ z))) mx l tg true.

Lemma part_of_at i z r c mx l tg : part_of (at_part i z r c mx l tg) = mk z c tg r.
Proof. unfold part_of, at_part, set_part, mk, columns. sf. rewrite firstn_part. reflexivity. Qed.

Lemma next_at i z t (Z : row_end z) (P : plain_row t) r c mx l tg : rowstart i = Some (t ++ z) -> (exists a, t = a ++ r) ->
  next (at_part i z r c mx l tg) =
  match scan r c mx l tg true with
  | Found r' c' mx' l' => Ret (true, at_part i z r' c' mx' l' tg)
  | Ended c' mx' l' =>
    if mx' <? S tg then Ret (false, at_part i z [] c' mx' l' (S tg))
    else match scan t 0 mx' 0 (S tg) false with
         | Found r' c' mx' l' => Ret (true, at_part i z r' c' mx' l' (S tg))
         | Ended _ _ _ => OutOfFuel
         end
  end.
Proof.
  intros R (a & E). assert (Pr : plain_row r) by (subst t; exact (plain_suffix a r P)).
  remember (at_part i z r c mx l tg) as st eqn:Est. unfold next.
  replace (ptr st) with (Some (r ++ z)) by (rewrite Est; reflexivity). replace (col st) with (Z.of_nat c) by (rewrite Est; reflexivity).
  replace (rowstart st) with (rowstart i) by (rewrite Est; reflexivity). replace (len st) with (length (part_text (r ++ z))) by (rewrite Est; reflexivity).
  replace (max_line st) with mx by (rewrite Est; reflexivity). replace (line st) with l by (rewrite Est; reflexivity). replace (target st) with tg by (rewrite Est; reflexivity). replace (hit st) with true by (rewrite Est; reflexivity).
  destruct (Z.of_nat c =? -1)%Z eqn:K; [lia|]. rewrite R. destruct (rest_part r z Z) as (b & Eb & ->).
  assert (Lb : length b <= length t) by (subst t; rewrite Eb, !app_length; lia).
  assert (Pb : plain_row b) by (rewrite Eb in Pr; exact (plain_suffix _ b Pr)).
  rewrite (next_loop_scan _ (t ++ z) z Z b Pb) by (rewrite app_length; lia).
  assert (Sc : scan r c mx l tg true = scan b c mx l tg true) by (rewrite Eb at 1; apply scan_skip; intros x; apply part_text_no). rewrite Sc.
  pose proof (scan_collect z b c mx l tg true) as C. destruct (scan b c mx l tg true) as [r' c' mx' l'|c' mx' l'].
  - destruct C as (_ & _ & a' & Ea). rewrite measured_eq; [rewrite Est; reflexivity| |exact Z]. rewrite Ea in Pb. exact (plain_suffix _ _ Pb).
  - destruct (mx' <? S tg); [rewrite (measured_eq st false [] z (Z.of_nat c') mx' l' (S tg) true (fun x I => match I with end) Z : measured st false z _ _ _ _ _ = _), Est; reflexivity|].
    rewrite (next_loop_scan _ (t ++ z) z Z t P _ 0) by (rewrite app_length; lia).
    pose proof (scan_collect z t 0 mx' 0 (S tg) false) as D. destruct (scan t 0 mx' 0 (S tg) false) as [r1 c1 mx1 l1|c1 mx1 l1].
    + destruct D as (_ & _ & a' & Ea). rewrite measured_eq; [rewrite Est; reflexivity| |exact Z]. rewrite Ea in P. exact (plain_suffix _ _ P).
    + destruct D as (X & _). discriminate X.
Qed.

Lemma row_from i z t (Z : row_end z) (P : plain_row t) : rowstart i = Some (t ++ z) -> forall F r c mx l tg,
  (exists a, t = a ++ r) -> Nat.max mx (peak r l) = peak t 0 ->
  let ps := collect z r c l tg true ++ flat_map (fun j => collect z t 0 0 j false) (seq (S tg) (peak t 0 - tg)) in
  length ps < F -> exists c' mx' l' tg', row_parts F (at_part i z r c mx l tg) = Ret (ps, at_part i z [] c' mx' l' tg').
Proof.
  intros R F. induction F as [|F IH]; intros r c mx l tg Sf M ps L; [lia|]. cbn [row_parts]. rewrite (next_at i z t Z P r c mx l tg R Sf). unfold ps in *.
  pose proof (scan_collect z r c mx l tg true) as C. destruct (scan r c mx l tg true) as [r' c' mx' l'|c' mx' l'].
  - destruct C as (EC & EM & a' & Ea). rewrite EC in *. cbn [obind fst snd app].
    destruct (IH r' c' mx' l' tg) as (c1 & mx1 & l1 & t1 & E1); [destruct Sf as (a & ->); exists (a ++ a'); rewrite Ea; apply app_assoc|congruence|cbn in L; lia|].
    rewrite E1. cbn [obind fst snd]. rewrite part_of_at. exists c1, mx1, l1, t1. reflexivity.
  - destruct C as (_ & EC & EM). rewrite EC in *. rewrite M in EM. subst mx'. cbn [app] in *. destruct (peak t 0 <? S tg) eqn:K.
    + replace (peak t 0 - tg) with 0 by lia. cbn [seq flat_map obind fst snd]. do 4 eexists. reflexivity.
    + replace (peak t 0 - tg) with (S (peak t 0 - S tg)) in * by lia. cbn [seq flat_map] in *.
      pose proof (scan_collect z t 0 (peak t 0) 0 (S tg) false) as D. destruct (scan t 0 (peak t 0) 0 (S tg) false) as [r1 c1 mx1 l1|c1 mx1 l1]; [|destruct D as (X & _); discriminate X].
      destruct D as (ED & EN & a1 & Ea1). rewrite ED in *. cbn [obind fst snd app].
      destruct (IH r1 c1 mx1 l1 (S tg)) as (c2 & mx2 & l2 & t2 & E2); [exists a1; exact Ea1|lia|cbn in L; lia|].
      rewrite E2. cbn [obind fst snd]. rewrite part_of_at. exists c2, mx2, l2, t2. reflexivity.
Qed.

(** ** cells and lines *)
Lemma split_nonempty c t : split_on c t <> [].
Proof. destruct t as [|x t]; [discriminate|]. cbn [split_on]. destruct (Ascii.eqb x c); [discriminate|]. destruct (split_on c t); discriminate. Qed.
Lemma split_cons c x t : Ascii.eqb x c = false -> exists p ps, split_on c t = p :: ps /\ split_on c (x :: t) = (x :: p) :: ps.
Proof. intro E. cbn [split_on]. rewrite E. destruct (split_on c t) as [|p ps] eqn:S; [exfalso; exact (split_nonempty c t S)|]. exists p, ps. split; reflexivity. Qed.

Lemma row_nonempty t : exists f o, row_of t = f :: o /\ f <> [].
Proof.
  unfold row_of. destruct (split_on TAB t) as [|p ps] eqn:E; [exfalso; exact (split_nonempty TAB t E)|]. exists (split_on VT p), (map (split_on VT) ps). split; [reflexivity|apply split_nonempty].
Qed.
Lemma row_tab t : row_of (TAB :: t) = [[]] :: row_of t. Proof. reflexivity. Qed.
Lemma row_vt t : exists f o, row_of t = f :: o /\ row_of (VT :: t) = ([] :: f) :: o.
Proof.
  unfold row_of. destruct (split_cons TAB VT t eq_refl) as (p & ps & -> & ->). cbn [map]. do 2 eexists. split; [reflexivity|]. reflexivity.
Qed.
Lemma row_char x t : Ascii.eqb x VT = false -> Ascii.eqb x TAB = false -> exists g f o, row_of t = (g :: f) :: o /\ row_of (x :: t) = ((x :: g) :: f) :: o.
Proof.
  intros V T. unfold row_of. destruct (split_cons TAB x t T) as (p & ps & -> & ->). cbn [map]. destruct (split_cons VT x p V) as (g & f & -> & ->). exists g, f, (map (split_on VT) ps). split; reflexivity.
Qed.

Definition pa (e : ascii) (cells : row) (k c j tg : nat) : part :=
  {| pcol := Z.of_nat c; pline := tg; pdata := nth j (nth k cells []) []; pafter := after e cells k j; pscreen := columns (nth j (nth k cells []) []) |}.

Lemma plain_ends x r : plain_row (x :: r) -> ends_part x = Ascii.eqb x VT || Ascii.eqb x TAB.
Proof. intro P. destruct (P x (or_introl eq_refl)) as (A & B & _). unfold ends_part. rewrite A, B, orb_false_r. reflexivity. Qed.
Lemma plain_tail x r : plain_row (x :: r) -> plain_row r.
Proof. intros P c I. apply P. right. exact I. Qed.

Lemma mk_pa z r c tg : row_end z -> plain_row r -> mk z c tg r = pa (at_ z) (row_of r) 0 c 0 tg.
Proof.
  intros Z P. assert (H : part_text (r ++ z) = nth 0 (nth 0 (row_of r) []) [] /\ at_ (skipn (length (part_text (r ++ z))) (r ++ z)) = after (at_ z) (row_of r) 0 0).
  { induction r as [|x r IH].
    - cbn [app row_of split_on map nth after length]. assert (E := row_end_ends z Z). destruct z as [|y z]; [split; reflexivity|]. cbn in E. cbn [part_text]. rewrite E. split; reflexivity.
    - cbn [app part_text]. rewrite (plain_ends x r P). specialize (IH (plain_tail x r P)). destruct (Ascii.eqb x VT) eqn:V.
      + apply Ascii.eqb_eq in V. subst x. cbn [orb]. destruct (row_vt r) as (f & o & E & ->). split; [reflexivity|]. cbn [length skipn at_ after nth]. destruct (row_nonempty r) as (f' & o' & E' & N).
        unfold after. cbn [nth length]. assert (f = f') by congruence. subst f'. destruct f; [contradiction|]. reflexivity.
      + destruct (Ascii.eqb x TAB) eqn:T; cbn [orb].
        * apply Ascii.eqb_eq in T. subst x. rewrite row_tab. split; [reflexivity|]. unfold after. cbn [nth length skipn at_]. destruct (row_nonempty r) as (f' & o' & -> & N). reflexivity.
        * destruct (row_char x r V T) as (g & f & o & E & ->). rewrite E in IH. cbn [nth] in IH. destruct IH as (I1 & I2). split; [cbn [nth]; congruence|]. cbn [length skipn]. rewrite I2. reflexivity. }
  destruct H as (H1 & H2). unfold mk, pa. rewrite H1 in *. rewrite H2. reflexivity.
Qed.

Lemma pa_skip e cells f k c j tg : pa e (f :: cells) (S k) c j tg = pa e cells k c j tg.
Proof. unfold pa, after. cbn [nth length]. reflexivity. Qed.
Lemma map_pa_shift e f cells c tg n : map (fun k => pa e (f :: cells) k (c + k) tg tg) (seq 2 n) = map (fun k => pa e cells k (S c + k) tg tg) (seq 1 n).
Proof. rewrite <- seq_shift, map_map. apply map_ext. intro k. rewrite pa_skip. replace (c + S k) with (S c + k) by lia. reflexivity. Qed.
Lemma map_pa_first e f f' o c tg n : map (fun k => pa e (f :: o) k (c + k) tg tg) (seq 1 n) = map (fun k => pa e (f' :: o) k (c + k) tg tg) (seq 1 n).
Proof. rewrite <- seq_shift, !map_map. apply map_ext. intro k. rewrite !pa_skip. reflexivity. Qed.

Lemma collect_cells z r : row_end z -> plain_row r -> forall c l tg h, (h = true -> tg <= l \/ length (hd [] (row_of r)) = 1) -> (h = false -> l < tg) ->
  collect z r c l tg h = (if h then [] else [pa (at_ z) (row_of r) 0 c (tg - l) tg]) ++ map (fun k => pa (at_ z) (row_of r) k (c + k) tg tg) (seq 1 (length (row_of r) - 1)).
Proof.
  intros Z. induction r as [|x r IH]; intros P c l tg h Ht Hf.
  - cbn [collect row_of split_on map length seq]. change (1 - 1) with 0. cbn [seq map]. rewrite app_nil_r. destruct h; [reflexivity|]. specialize (Hf eq_refl). f_equal. unfold mk, pa, after. cbn [app nth length].
    assert (E := row_end_ends z Z). assert (Ep : part_text z = []) by (destruct z as [|y z]; [reflexivity|]; cbn in E; cbn [part_text]; rewrite E; reflexivity). rewrite Ep. cbn [length skipn].
    destruct (tg - l) as [|d] eqn:D; [lia|]. cbn [nth]. destruct d; reflexivity.
  - assert (P' := plain_tail x r P). specialize (IH P'). cbn [collect]. destruct (Ascii.eqb x VT) eqn:V.
    + apply Ascii.eqb_eq in V. subst x. destruct (row_vt r) as (f & o & E & ER). rewrite ER in *. cbn [length hd] in Ht. rewrite E in IH. cbn [length hd] in *.
      replace (S (length o) - 1) with (length o) in * by lia. destruct (row_nonempty r) as (f' & o' & E' & N). assert (f' = f) by congruence. subst f'.
      assert (LF : 1 <= length f) by (destruct f; [contradiction|cbn; lia]).
      destruct (S l =? tg) eqn:K.
      * destruct h; [exfalso; destruct (Ht eq_refl); lia|]. rewrite (IH c (S l) tg true) by (intros; lia). cbn [app]. rewrite (mk_pa z r c tg Z P'), E. rewrite (map_pa_first _ f ([] :: f)). f_equal.
        replace (tg - l) with 1 by lia. unfold pa, after. cbn [nth length]. reflexivity.
      * destruct h.
        -- rewrite (IH c (S l) tg true) by (intro; try discriminate; destruct (Ht eq_refl); lia). cbn [app]. apply map_pa_first.
        -- specialize (Hf eq_refl). rewrite (IH c (S l) tg false) by (intros; lia). cbn [app]. rewrite (map_pa_first _ f ([] :: f)). f_equal. replace (tg - l) with (S (tg - S l)) by lia. unfold pa, after. cbn [nth length]. reflexivity.
    + destruct (Ascii.eqb x TAB) eqn:T.
      * apply Ascii.eqb_eq in T. subst x. rewrite row_tab. destruct (row_nonempty r) as (f & o & E & N). rewrite E in *. cbn [length hd] in *. replace (S (S (length o)) - 1) with (S (length o)) by lia. replace (S (length o) - 1) with (length o) in IH by lia.
        f_equal.
        -- destruct h; [reflexivity|]. specialize (Hf eq_refl). f_equal. unfold mk, pa, after. cbn [app part_text ends_part nth length]. change (ends_part TAB) with true. cbn [length skipn at_]. destruct (tg - l) as [|d] eqn:D; [lia|]. cbn [nth]. destruct d; reflexivity.
        -- cbn [seq map]. rewrite map_pa_shift, pa_skip. replace (c + 1) with (S c) by lia. destruct tg as [|tg].
           ++ rewrite (IH (S c) 0 0 true) by (intros; lia). rewrite (mk_pa z r (S c) 0 Z P'), E. reflexivity.
           ++ cbn [Nat.eqb]. rewrite (IH (S c) 0 (S tg) false) by (intros; lia). rewrite Nat.sub_0_r. reflexivity.
      * destruct (row_char x r V T) as (g & f & o & E & ER). rewrite ER in *. rewrite E in IH. cbn [length hd] in *. rewrite IH; [|exact Ht|exact Hf]. rewrite (map_pa_first _ (g :: f) ((x :: g) :: f)). f_equal.
        destruct h; [reflexivity|]. specialize (Hf eq_refl). f_equal. unfold pa, after. cbn [nth length]. destruct (tg - l) as [|d] eqn:D; [lia|]. reflexivity.
Qed.

Lemma height_cons f (o : row) : height (f :: o) = Nat.max (length f) (height o).
Proof. reflexivity. Qed.
Lemma peak_height r : plain_row r -> forall l, S (Nat.max l (peak r l)) = Nat.max (l + length (hd [] (row_of r))) (height (tl (row_of r))).
Proof.
  induction r as [|x r IH]; intros P l; [cbn; lia|]. specialize (IH (plain_tail x r P)). cbn [peak]. destruct (Ascii.eqb x VT) eqn:V.
  - apply Ascii.eqb_eq in V. subst x. destruct (row_vt r) as (f & o & E & ->). specialize (IH (S l)). rewrite E in IH. cbn [hd tl length] in *. lia.
  - destruct (Ascii.eqb x TAB) eqn:T.
    + apply Ascii.eqb_eq in T. subst x. rewrite row_tab. specialize (IH 0). destruct (row_nonempty r) as (f & o & E & N). rewrite E in *. change (tl ([[]] :: f :: o)) with (f :: o). rewrite height_cons. cbn [hd tl length] in *. lia.
    + destruct (row_char x r V T) as (g & f & o & E & ->). specialize (IH l). rewrite E in IH. cbn [hd tl length] in *. exact IH.
Qed.
Lemma peak_eq t : plain_row t -> S (peak t 0) = height (row_of t).
Proof. intro P. pose proof (peak_height t P 0) as H. destruct (row_nonempty t) as (f & o & E & _). rewrite E in *. rewrite height_cons. cbn [hd tl] in H. lia. Qed.

Lemma row_size t : plain_row t -> length (row_of t) <= S (length t) /\ height (row_of t) <= S (length t).
Proof.
  intro P. split.
  - unfold row_of. rewrite map_length. clear P. induction t as [|x t IH]; [cbn; lia|]. cbn [split_on length]. destruct (Ascii.eqb x TAB); [cbn [length]; lia|]. destruct (split_on TAB t); cbn [length] in *; lia.
  - rewrite <- peak_eq by exact P. clear P. assert (G : forall l, peak t l <= l + length t).
    { induction t as [|x t IH]; intro l; cbn [peak length]; [lia|]. destruct (Ascii.eqb x VT); [specialize (IH (S l)); lia|]. destruct (Ascii.eqb x TAB); [specialize (IH 0); lia|specialize (IH l); lia]. }
    specialize (G 0). lia.
Qed.

Lemma pass_eq z t j : row_end z -> plain_row t -> 0 < j -> collect z t 0 0 j false = map (part_at (at_ z) (row_of t) j) (seq 0 (length (row_of t))).
Proof.
  intros Z P J. rewrite (collect_cells z t Z P 0 0 j false) by (intros; lia). rewrite Nat.sub_0_r. destruct (row_nonempty t) as (f & o & E & _). rewrite E. cbn [length]. replace (S (length o) - 1) with (length o) by lia.
  reflexivity.
Qed.
Lemma pass_0 z t : row_end z -> plain_row t -> mk z 0 0 t :: collect z t 0 0 0 true = map (part_at (at_ z) (row_of t) 0) (seq 0 (length (row_of t))).
Proof.
  intros Z P. rewrite (collect_cells z t Z P 0 0 0 true) by (intros; lia). rewrite mk_pa by assumption. destruct (row_nonempty t) as (f & o & E & _). rewrite E. cbn [length]. replace (S (length o) - 1) with (length o) by lia.
  reflexivity.
Qed.

Lemma flat_map_length_const {A B} (f : A -> list B) n l : (forall a, In a l -> length (f a) = n) -> length (flat_map f l) = n * length l.
Proof. induction l as [|a l IH]; intro H; [cbn; lia|]. cbn [flat_map length]. rewrite app_length, IH, (H a); [lia|left; reflexivity|intros b I; apply H; right; exact I]. Qed.

Lemma row_lemma i z t : row_end z -> plain_row t -> rowstart i = Some (t ++ z) ->
  exists i', row_parts (row_fuel (restart_row i)) (restart_row i) = Ret (parts_of (at_ z) (row_of t), i') /\
    tablestart i' = tablestart i /\ rowdesc i' = rowdesc i /\ ptr i' = Some z.
Proof.
  intros Z P R. remember (restart_row i) as j eqn:Ej.
  assert (Rj : rowstart j = Some (t ++ z)) by (rewrite Ej; exact R).
  assert (N : next j = Ret (true, at_part j z t 0 0 0 0)).
  { unfold next. replace (ptr j) with (Some (t ++ z)) by (rewrite Ej; cbn; congruence). replace (col j) with (-1)%Z by (rewrite Ej; reflexivity). cbn [Z.eqb Pos.eqb].
    replace (max_line j) with 0 by (rewrite Ej; reflexivity). replace (line j) with 0 by (rewrite Ej; reflexivity). replace (target j) with 0 by (rewrite Ej; reflexivity). replace (hit j) with true by (rewrite Ej; reflexivity).
    rewrite measured_eq by assumption. reflexivity. }
  assert (A : parts_of (at_ z) (row_of t) = mk z 0 0 t :: collect z t 0 0 0 true ++ flat_map (fun j => collect z t 0 0 j false) (seq 1 (peak t 0 - 0))).
  { unfold parts_of. rewrite <- peak_eq by exact P. cbn [seq flat_map]. rewrite <- pass_0 by assumption. cbn [app]. f_equal. f_equal. rewrite Nat.sub_0_r. rewrite !flat_map_concat_map. f_equal. apply map_ext_in. intros k K. apply in_seq in K. symmetry. apply pass_eq; [exact Z|exact P|lia]. }
  unfold row_fuel. rewrite Rj. set (F := (length (t ++ z) + 2) * (length (t ++ z) + 2)). assert (LF : length (parts_of (at_ z) (row_of t)) < F).
  { unfold parts_of. rewrite (flat_map_length_const _ (length (row_of t))) by (intros; rewrite map_length, seq_length; reflexivity). rewrite seq_length. destruct (row_size t P). unfold F. rewrite app_length. nia. }
  clearbody F. destruct F as [|F]; [lia|]. cbn [row_parts]. rewrite N. cbn [obind fst snd]. rewrite A in *.
  destruct (row_from j z t Z P Rj F t 0 0 0 0) as (c' & mx' & l' & tg' & E); [exists []; reflexivity|lia|cbn in LF; exact (proj2 (Nat.succ_lt_mono _ _) LF)|].
  rewrite E. cbn [obind fst snd]. rewrite part_of_at. eexists. split; [reflexivity|]. rewrite Ej. repeat split.
Qed.

(** ** tables *)
Fixpoint help_parts (rs : list row) : list (list part) :=
  match rs with [] => [] | [r] => [parts_of NUL r] | r :: rs => parts_of NL r :: help_parts rs end.
Definition hparts (h : str) : list (list part) := help_parts (rows_of h).

Definition c_text (h : str) : Prop := ~ In NUL h /\ ~ In byte_FF h.

Lemma first_row h : exists t z, h = t ++ z /\ (forall c, In c t -> Ascii.eqb c NL = false) /\
  ((z = [] /\ split_on NL h = [t]) \/ exists h', z = NL :: h' /\ split_on NL h = t :: split_on NL h').
Proof.
  induction h as [|x h (t & z & E & H & D)]; [exists [], []; split; [reflexivity|]; split; [intros c []|left; split; reflexivity]|].
  destruct (Ascii.eqb x NL) eqn:K.
  - apply Ascii.eqb_eq in K. subst x. exists [], (NL :: h). split; [reflexivity|]. split; [intros c []|]. right. exists h. split; reflexivity.
  - exists (x :: t), z. split; [cbn; congruence|]. split; [intros c [<-|I]; [exact K|exact (H c I)]|]. cbn [split_on]. rewrite K. destruct D as [(-> & ->)|(h' & -> & ->)]; [left; split; reflexivity|right; exists h'; split; reflexivity].
Qed.
Lemma c_text_app a b : c_text (a ++ b) -> c_text a /\ c_text b.
Proof. intros (H1 & H2). split; split; intro I; [apply H1|apply H2|apply H1|apply H2]; apply in_or_app; auto. Qed.
Lemma c_text_plain t : c_text t -> (forall c, In c t -> Ascii.eqb c NL = false) -> plain_row t.
Proof. intros (H1 & H2) H c I. split; [|split]; [|exact (H c I)|intros ->; exact (H2 I)]. destruct (Ascii.eqb c NUL) eqn:E; [|reflexivity]. apply Ascii.eqb_eq in E. subst c. contradiction. Qed.

(** the rest of a table after a row that ends at [z], when the next entries have the helps [hs] and then one has none *)
Definition rows_after (z : str) : list (list part) := match z with [] => [] | _ :: h => hparts h end.
Definition follows (d : list entry) (hs : list str) : Prop := exists x, map help d = map Some hs ++ None :: x.

Lemma follows_cons d h hs : follows d (h :: hs) -> exists e d', d = e :: d' /\ help e = Some h /\ follows d' hs.
Proof. intros (x & E). destruct d as [|e d]; [discriminate|]. cbn in E. injection E as E1 E2. exists e, d. split; [reflexivity|]. split; [exact E1|]. exists x. exact E2. Qed.
Lemma follows_nil d : follows d [] -> exists e d', d = e :: d' /\ help e = None.
Proof. intros (x & E). destruct d as [|e d]; [discriminate|]. cbn in E. injection E as E1 E2. exists e, d. split; [reflexivity|exact E1]. Qed.

Lemma hparts_length h : 0 < length (hparts h) <= S (length h).
Proof.
  unfold hparts, rows_of. assert (L : forall rs, length (help_parts rs) = length rs) by (induction rs as [|r [|r' rs] IH]; [reflexivity|reflexivity|cbn [length] in *; change (help_parts (r :: r' :: rs)) with (parts_of NL r :: help_parts (r' :: rs)); cbn [length] in *; lia]).
  rewrite L, map_length. split; [pose proof (split_nonempty NL h); destruct (split_on NL h); [contradiction|cbn; lia]|].
  induction h as [|x h IH]; [cbn; lia|]. cbn [split_on length]. destruct (Ascii.eqb x NL); [cbn [length]; lia|]. destruct (split_on NL h); cbn [length] in *; lia.
Qed.

Lemma to_row_end_nil z : z = [] \/ (exists h, z = NL :: h) -> to_row_end z = z.
Proof. intros [->|(h & ->)]; reflexivity. Qed.

Lemma table_rest F : forall i z e d hs, ptr i = Some z -> (z = [] \/ exists h, z = NL :: h) -> c_text z -> rowdesc i = Some (e :: d) -> follows d hs -> (forall h, In h hs -> c_text h) ->
  length (rows_after z ++ flat_map hparts hs) < F ->
  exists i', table_rows F i = Ret (rows_after z ++ flat_map hparts hs, i') /\ tablestart i' = tablestart i /\ rowdesc i' <> None.
Proof.
  induction F as [|F IH]; intros i z e d hs Ep Ez Cz Er Fo Ch L; [lia|]. cbn [table_rows].
  (* entering the row that starts with [h] *)
  assert (Enter : forall j h hs' e' d', rowstart j = Some h -> c_text h -> rowdesc j = Some (e' :: d') -> follows d' hs' -> (forall h, In h hs' -> c_text h) -> length (hparts h ++ flat_map hparts hs') < S F ->
    exists i', obind (row_parts (row_fuel (restart_row j)) (restart_row j)) (fun q => obind (table_rows F (snd q)) (fun z => Ret (fst q :: fst z, snd z))) = Ret (hparts h ++ flat_map hparts hs', i') /\ tablestart i' = tablestart j /\ rowdesc i' <> None).
  { intros j h hs' e' d' Rj Hc Dj Fo' Ch' L'. destruct (first_row h) as (t & y & E & Ht & Hy). rewrite E in Hc. destruct (c_text_app _ _ Hc) as (Ct & Cy). rewrite E in Rj.
    assert (Zy : row_end y) by (destruct Hy as [(-> & _)|(h' & -> & _)]; [left; reflexivity|right; reflexivity]).
    destruct (row_lemma j y t Zy (c_text_plain t Ct Ht) Rj) as (j' & EP & T1 & D1 & P1). rewrite EP. cbn [obind fst snd].
    assert (HH : hparts h = parts_of (at_ y) (row_of t) :: rows_after y).
    { unfold hparts, rows_of. destruct Hy as [(-> & ->)|(h' & -> & ->)]; [reflexivity|]. cbn [map]. unfold rows_after, hparts, rows_of. pose proof (split_nonempty NL h') as N. destruct (split_on NL h'); [contradiction|reflexivity]. }
    rewrite HH in *. cbn [app length] in L'.
    destruct (IH j' y e' d' hs') as (i' & E' & T' & D'); [exact P1|destruct Hy as [(-> & _)|(h' & -> & _)]; eauto|exact Cy|congruence|exact Fo'|exact Ch'|lia|].
    rewrite E'. cbn [obind fst snd]. exists i'. split; [reflexivity|]. split; [congruence|exact D']. }
  unfold next_row. rewrite Ep, (to_row_end_nil z Ez). destruct Ez as [->|(h & ->)].
  - rewrite Er. destruct hs as [|h hs].
    + destruct (follows_nil d Fo) as (e1 & d1 & -> & H1). rewrite H1. cbn [obind fst snd]. exists i. split; [reflexivity|]. split; [reflexivity|]. rewrite Er. discriminate.
    + destruct (follows_cons d h hs Fo) as (e1 & d1 & -> & H1 & Fo1). rewrite H1. cbn [obind fst snd]. cbn [rows_after app flat_map] in *.
      destruct (Enter (set_row i (Some (e1 :: d1)) (Some h)) h hs e1 d1) as (i' & E' & T' & D'); [reflexivity|apply Ch; left; reflexivity|reflexivity|exact Fo1|intros k K; apply Ch; right; exact K|exact L|]. exists i'. split; [exact E'|]. split; [exact T'|exact D'].
  - cbn [obind fst snd]. change (Ascii.eqb NL NL) with true. cbn [obind fst snd]. cbn [rows_after] in *.
    destruct (Enter (set_row i (rowdesc i) (Some h)) h hs e d) as (i' & E' & T' & D'); [reflexivity|exact (proj2 (c_text_app [NL] h Cz))|exact Er|exact Fo|exact Ch|exact L|]. exists i'. split; [exact E'|]. split; [exact T'|exact D'].
Qed.

Lemma table_lemma i e d h hs : tablestart i = e :: d -> help e = Some h -> c_text h -> follows d hs -> (forall h, In h hs -> c_text h) ->
  exists i', table_rows (table_fuel i) (restart_table i) = Ret (hparts h ++ flat_map hparts hs, i') /\ tablestart i' = tablestart i /\ rowdesc i' <> None.
Proof.
  intros T H C Fo Ch. 
  assert (L : length (hparts h ++ flat_map hparts hs) < table_fuel i).
  { unfold table_fuel. rewrite T. cbn [fold_right]. rewrite H, app_length. pose proof (hparts_length h) as K. assert (G : length (flat_map hparts hs) < fold_right (fun e n => (match help e with Some h => S (length h) | None => 0 end) + n) 2 d).
    { clear -Fo. revert d Fo. induction hs as [|k hs IH]; intros d Fo; [clear Fo; change (length (flat_map hparts [])) with 0; induction d as [|x d IHd]; [cbn; lia|]; cbn [fold_right]; destruct (help x); lia|]. destruct (follows_cons d k hs Fo) as (e1 & d1 & -> & H1 & Fo1). cbn [flat_map fold_right]. rewrite H1, app_length. pose proof (hparts_length k). specialize (IH d1 Fo1). lia. }
    lia. }
  remember (table_fuel i) as F eqn:EF. clear EF. destruct F as [|F]; [lia|]. cbn [table_rows]. unfold next_row. cbn [ptr restart_table]. 
  assert (R : rowstart (restart_row (restart_table i)) = Some h) by (cbn; rewrite T; exact H). rewrite R. cbn [obind fst snd].
  destruct (first_row h) as (t & y & E & Ht & Hy). rewrite E in C. destruct (c_text_app _ _ C) as (Ct & Cy).
  assert (Zy : row_end y) by (destruct Hy as [(-> & _)|(h' & -> & _)]; [left; reflexivity|right; reflexivity]).
  destruct (row_lemma (restart_table i) y t Zy (c_text_plain t Ct Ht)) as (j' & EP & T1 & D1 & P1); [cbn; rewrite T, H, E; reflexivity|]. rewrite EP. cbn [obind fst snd].
  assert (HH : hparts h = parts_of (at_ y) (row_of t) :: rows_after y).
  { unfold hparts, rows_of. destruct Hy as [(-> & ->)|(h' & -> & ->)]; [reflexivity|]. cbn [map]. unfold rows_after, hparts, rows_of. pose proof (split_nonempty NL h') as N. destruct (split_on NL h'); [contradiction|reflexivity]. }
  rewrite HH in *. cbn [app length] in L.
  destruct (table_rest F j' y e d hs) as (i' & E' & T' & D'); [exact P1|destruct Hy as [(-> & _)|(h' & -> & _)]; eauto|exact Cy|rewrite D1; cbn; rewrite T; reflexivity|exact Fo|exact Ch|lia|].
  rewrite E'. cbn [obind fst snd]. exists i'. split; [reflexivity|]. split; [rewrite T', T1; reflexivity|exact D'].
Qed.

(** all the tables *)
Fixpoint print_all (w a b : Z) (ts : list (list (list part))) : outcome str :=
  match ts with [] => Ret [] | t :: ts => obind (print_table w a b t) (fun x => obind (print_all w a b ts) (fun y => Ret (x ++ y))) end.

Fixpoint drop_some (u : list entry) : list entry := match u with e :: u' => match help e with Some _ => drop_some u' | None => u end | [] => [] end.
Fixpoint drop_none (u : list entry) : list entry := match u with e :: u' => match help e with None => drop_none u' | Some _ => u end | [] => [] end.
Fixpoint take_some (u : list entry) : list str := match u with e :: u' => match help e with Some h => h :: take_some u' | None => [] end | [] => [] end.

Lemma skip_table_eq u more : (forall e, In e u -> shortopt e = true) -> skip_table (u ++ the_end :: more) = Ret (drop_some u ++ the_end :: more).
Proof. induction u as [|e u IH]; intro H; [reflexivity|]. cbn [app skip_table drop_some]. destruct (help e); [|reflexivity]. rewrite (H e (or_introl eq_refl)). apply IH. intros x I. apply H. right. exact I. Qed.
Lemma skip_breaks_eq u more : (forall e, In e u -> shortopt e = true) -> skip_breaks (u ++ the_end :: more) = Ret (drop_none u ++ the_end :: more).
Proof. induction u as [|e u IH]; intro H; [reflexivity|]. cbn [app skip_breaks drop_none]. destruct (help e); [reflexivity|]. rewrite (H e (or_introl eq_refl)). apply IH. intros x I. apply H. right. exact I. Qed.
Lemma drop_some_incl u e : In e (drop_some u) -> In e u.
Proof. induction u as [|x u IH]; [intros []|]. cbn [drop_some]. destruct (help x); [intro I; right; exact (IH I)|auto]. Qed.
Lemma drop_none_incl u e : In e (drop_none u) -> In e u.
Proof. induction u as [|x u IH]; [intros []|]. cbn [drop_none]. destruct (help x); [auto|intro I; right; exact (IH I)]. Qed.
Lemma drop_none_length u : length (drop_none u) <= length u.
Proof. induction u as [|x u IH]; [cbn; lia|]. cbn [drop_none]. destruct (help x); cbn [length]; lia. Qed.
Lemma drop_some_length u : length (drop_some u) <= length u.
Proof. induction u as [|x u IH]; [cbn; lia|]. cbn [drop_some]. destruct (help x); cbn [length]; lia. Qed.
Lemma take_follows u more : follows (u ++ the_end :: more) (take_some u).
Proof. induction u as [|e u (x & IH)]; [exists (map help more); reflexivity|]. cbn [app take_some]. destruct (help e) as [h|] eqn:E; [exists x; cbn [map app]; rewrite E, IH; reflexivity|]. eexists. cbn [map app]. rewrite E. reflexivity. Qed.
Lemma take_in u h : In h (take_some u) -> exists e, In e u /\ help e = Some h.
Proof. induction u as [|x u IH]; [intros []|]. cbn [take_some]. destruct (help x) as [k|] eqn:E; [|intros []]. intros [<-|I]; [exists x; split; [left; reflexivity|exact E]|]. destruct (IH I) as (e & I' & H). exists e. split; [right; exact I'|exact H]. Qed.

(** the parts of the tables *)
Fixpoint tparts (n : nat) (u : list entry) : list (list (list part)) :=
  match n with
  | O => []
  | S n => match drop_none u with [] => [] | e :: u' => flat_map hparts (take_some (e :: u')) :: tparts n (drop_some u') end
  end.

Lemma drop_some_cons e u h : help e = Some h -> drop_some (e :: u) = drop_some u. Proof. intro H. cbn. rewrite H. reflexivity. Qed.

Lemma print_tables_eq w a b more n : forall u i F, proper u -> length u <= n -> n < F ->
  (rowdesc i = None /\ tablestart i = u ++ the_end :: more \/ rowdesc i <> None /\ exists v, tablestart i = v ++ the_end :: more /\ proper v /\ u = drop_some v) ->
  print_tables F w a b i = print_all w a b (tparts n u).
Proof.
  induction n as [|n IH]; intros u i F Pu Ln LF Hi; (destruct F as [|F]; [lia|]); cbn [print_tables].
  all: assert (K : match rowdesc i with Some _ => skip_table (tablestart i) | None => Ret (tablestart i) end = Ret (u ++ the_end :: more))
    by (destruct Hi as [(-> & ->)|(N & v & -> & Pv & ->)]; [reflexivity|destruct (rowdesc i); [|contradiction]; apply skip_table_eq; intros e I; apply (Pv e I)]).
  all: unfold next_table; rewrite K; cbn [obind]; rewrite skip_breaks_eq by (intros e I; apply (Pu e I)); cbn [obind fst snd]; clear K Hi.
  - destruct u; [|cbn in Ln; lia]. cbn [drop_none app restart_table set_table rowstart tablestart help the_end fst tparts print_all]. reflexivity.
  - cbn [tparts]. destruct (drop_none u) as [|e u'] eqn:D; [cbn [app restart_table set_table rowstart tablestart help the_end print_all]; reflexivity|].
    assert (He : exists h, help e = Some h).
    { clear -D. induction u as [|x u IH]; [discriminate|]. cbn [drop_none] in D. destruct (help x) as [h|] eqn:E; [injection D as -> _; eauto|exact (IH D)]. }
    destruct He as (h & He). assert (Pe : proper (e :: u')) by (intros x I; apply Pu; apply drop_none_incl; rewrite D; exact I).
    cbn [app restart_table set_table rowstart tablestart]. rewrite He. cbn [obind fst snd].
    set (j := restart_table (set_table i (e :: u' ++ the_end :: more))). 
    destruct (table_lemma j e (u' ++ the_end :: more) h (take_some u')) as (i' & E & T & N); [reflexivity|exact He|exact (proj2 (Pe e (or_introl eq_refl)) h He)|apply take_follows|intros k I; destruct (take_in u' k I) as (y & Iy & Hy); exact (proj2 (Pe y (or_intror Iy)) k Hy)|].
    match goal with |- context [table_rows (table_fuel ?x) (restart_table ?y)] => replace (table_fuel x) with (table_fuel j) by reflexivity; replace (restart_table y) with (restart_table j) by reflexivity end.
    rewrite E. cbn [obind fst snd]. cbn [take_some flat_map print_all]. rewrite He. cbn [flat_map print_all].
    destruct (print_table w a b (hparts h ++ flat_map hparts (take_some u'))) as [x| | | |]; try reflexivity. cbn [obind].
    rewrite (IH (drop_some u') i' F); [reflexivity|intros x0 I; apply Pe; right; apply drop_some_incl; exact I|pose proof (drop_none_length u) as Q; rewrite D in Q; pose proof (drop_some_length u'); cbn in Q; lia|lia|].
    right. split; [exact N|]. exists (e :: u'). split; [rewrite T; reflexivity|]. split; [exact Pe|]. symmetry. exact (drop_some_cons e u' h He).
Qed.
