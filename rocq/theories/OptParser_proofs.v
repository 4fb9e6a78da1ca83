From Coq Require Import Lia ZifyBool ZifyNat ZifyN Permutation.
From Verif Require Import OptParser_spec.

(** * Elements without an action *)
Inductive fin := Cont | Stop (skipped : bool) | Bad.

Section Scan.
Variable usage : list descriptor.
Variable min : Z.
Variable single_minus : bool.

Definition treat_ev (found : option descriptor) (n : text) (optarg : option text) (detached : bool) : list opt * fin :=
  match (match found with Some d => Some d | None => find_dummy usage end) with
  | None => ([], Cont)
  | Some d =>
      match check_arg d n optarg with
      | ARG_ILLEGAL => ([], Bad)
      | ARG_OK => ([{| desc := d; name := n; arg := optarg |}], Stop (match optarg with Some _ => detached | None => false end))
      | ARG_IGNORE | ARG_NONE => ([{| desc := d; name := n; arg := None |}], Cont)
      end
  end.
Definition long_ev (found : option descriptor) (param n : text) (next : option text) : list opt * fin :=
  match attached n with
  | Some v => treat_ev found param (Some v) false
  | None => treat_ev found param next true
  end.
Fixpoint short_ev (t : text) (next : option text) : list opt * fin :=
  match t with
  | [] => ([], Cont)
  | c :: r =>
      let '(optarg, detached) := match r with [] => (next, true) | _ => (Some r, false) end in
      let (os, f) := treat_ev (find_short usage c) (c :: r) optarg detached in
      match f with
      | Cont => let (os', f') := short_ev r next in (os ++ os', f')
      | _ => (os, f)
      end
  end.
Definition element_ev (param : text) (next : option text) : list opt * fin :=
  match param with
  | _ :: t =>
      match t with
      | c :: n =>
          if Ascii.eqb c "-" then long_ev (find_long usage min n) param n next
          else if single_minus then
            match find_long usage min t with
            | Some d => long_ev (Some d) param t next
            | None => short_ev t next
            end
          else short_ev t next
      | [] => ([], Cont)
      end
  | [] => ([], Cont)
  end.

Fixpoint scan (gnu : bool) (args : list text) : list (text * role) * list opt * bool :=
  match args with
  | [] => ([], [], true)
  | t :: r =>
      if negb (is_option t) then
        if gnu then let '(l, os, ok) := scan gnu r in ((t, Operand) :: l, os, ok)
        else (all_of Operand (t :: r), [], true)
      else if is_terminator t then ((t, Terminator) :: all_of Operand r, [], true)
      else
        let (os, f) := element_ev t (hd_error r) in
        match f with
        | Bad => (all_of Unread (t :: r), os, false)
        | Stop true =>
            match r with
            | v :: r' => let '(l, os', ok) := scan gnu r' in ((t, Option_) :: (v, Argument) :: l, os ++ os', ok)
            | [] => ([(t, Option_)], os, true)
            end
        | _ => let '(l, os', ok) := scan gnu r in ((t, Option_) :: l, os ++ os', ok)
        end
  end.

Section Act.
Context {A : Type}.
Variable perform : A -> opt -> answer A.

Fixpoint play (a : A) (os : list opt) : answer A :=
  match os with
  | [] => Next a
  | o :: r => match perform a o with Next a' => play a' r | e => e end
  end.
Lemma play_app a os os' : play a (os ++ os') = match play a os with Next a' => play a' os' | e => e end.
Proof. revert a. induction os as [|o r IH]; intros a; cbn; [reflexivity|]. destruct (perform a o); [apply IH|reflexivity|reflexivity]. Qed.

Definition played (e : round A) (a : A) (ev : list opt * fin) : Prop :=
  match play a (fst ev) with
  | Next a' => match snd ev with Cont => e = Again A a' | Stop k => e = Taken A k a' | Bad => e = Fatal A false a' end
  | Refuse a' => exists k, e = Fatal A k a' /\ (k = true -> snd ev = Stop true)
  | Overrun => e = Out A
  end.
Lemma treat_played f n o d a : played (treat A perform usage f n o d a) a (treat_ev f n o d).
Proof.
  unfold played, treat, treat_ev. destruct (match f with Some x => Some x | None => find_dummy usage end) as [x|]; cbn; [|reflexivity].
  destruct (check_arg x n o); cbn; try reflexivity; destruct (perform a _) as [b|b|]; cbn; try reflexivity;
  try (eexists; split; [reflexivity|]; intros H; solve [discriminate H | now rewrite H]).
Qed.
Lemma short_played t nx a : played (short_rounds A perform usage t nx a) a (short_ev t nx).
Proof.
  revert a. induction t as [|c r IH]; intros a; [reflexivity|]. cbn [short_rounds short_ev].
  destruct (match r with [] => (nx, true) | _ => (Some r, false) end) as [o d].
  pose proof (treat_played (find_short usage c) (c :: r) o d a) as T. destruct (treat_ev (find_short usage c) (c :: r) o d) as [os f] eqn:E.
  unfold played in T. cbn [fst snd] in T. destruct f as [|k|].
  - destruct (play a os) as [b|b|] eqn:P.
    + rewrite T. specialize (IH b). destruct (short_ev r nx) as [os' f']. unfold played in *. cbn [fst snd] in *. rewrite play_app, P. exact IH.
    + destruct T as (k & -> & K). destruct k; [now specialize (K eq_refl)|]. destruct (short_ev r nx) as [os' f']. unfold played. cbn [fst snd]. rewrite play_app, P.
      exists false. split; [reflexivity|discriminate].
    + rewrite T. destruct (short_ev r nx) as [os' f']. unfold played. cbn [fst snd]. rewrite play_app, P. reflexivity.
  - unfold played. cbn [fst snd]. destruct (play a os) as [b|b|]; [now rewrite T| |now rewrite T].
    destruct T as (j & -> & J). exists j. split; [reflexivity|exact J].
  - unfold played. cbn [fst snd]. destruct (play a os) as [b|b|]; [now rewrite T| |now rewrite T].
    destruct T as (j & -> & J). exists j. split; [reflexivity|exact J].
Qed.
Lemma long_played f p n nx a : played (long_round A perform usage f p n nx a) a (long_ev f p n nx).
Proof. unfold long_round, long_ev. destruct (attached n); apply treat_played. Qed.
Lemma element_played p nx a : played (element A perform usage single_minus min p nx a) a (element_ev p nx).
Proof.
  unfold element, element_ev. destruct p as [|x [|c n]]; try reflexivity. destruct (Ascii.eqb c "-"); [apply long_played|].
  destruct single_minus; [|apply short_played]. destruct (find_long usage min (c :: n)); [apply long_played|apply short_played].
Qed.

(** * shift *)
Lemma put_app (pre post : list text) x y : put (pre ++ x :: post) (length pre) y = pre ++ y :: post.
Proof.
  unfold put. induction pre as [|p pre IH]; [reflexivity|]. cbn [length firstn skipn app] in *. now rewrite IH.
Qed.
Lemma shift_rot pre ns x post : shift (pre ++ ns ++ x :: post) (length pre + length ns) (length ns) = pre ++ x :: ns ++ post.
Proof.
  revert x post. induction ns as [|n ns IH] using rev_ind; intros x post; cbn [shift length]; [reflexivity|].
  rewrite app_length. cbn [length]. rewrite Nat.add_1_r. cbn [shift]. rewrite Nat.add_succ_r. rewrite <- Nat.add_succ_r.
  replace (length pre + S (length ns) - 1) with (length pre + length ns) by lia.
  assert (E1 : nth_error (pre ++ (ns ++ [n]) ++ x :: post) (length pre + S (length ns)) = Some x).
  { rewrite nth_error_app2 by lia. rewrite nth_error_app2 by (rewrite app_length; cbn; lia). rewrite app_length. cbn.
    replace (_ - _) with 0 by lia. reflexivity. }
  assert (E2 : nth_error (pre ++ (ns ++ [n]) ++ x :: post) (length pre + length ns) = Some n).
  { rewrite nth_error_app2 by lia. rewrite nth_error_app1 by (rewrite app_length; cbn; lia). rewrite nth_error_app2 by lia.
    replace (_ - _) with 0 by lia. reflexivity. }
  rewrite E1, E2.
  replace (put (put (pre ++ (ns ++ [n]) ++ x :: post) (length pre + S (length ns)) n) (length pre + length ns) x)
    with (pre ++ ns ++ x :: n :: post).
  - rewrite IH. rewrite <- app_assoc. reflexivity.
  - replace (pre ++ (ns ++ [n]) ++ x :: post) with ((pre ++ ns ++ [n]) ++ x :: post) by (rewrite <- !app_assoc; reflexivity).
    replace (length pre + S (length ns)) with (length (pre ++ ns ++ [n])) by (rewrite !app_length; cbn; lia). rewrite put_app.
    replace ((pre ++ ns ++ [n]) ++ n :: post) with ((pre ++ ns) ++ n :: n :: post) by (rewrite <- !app_assoc; reflexivity).
    replace (length pre + length ns) with (length (pre ++ ns)) by (rewrite !app_length; lia). rewrite put_app. rewrite <- app_assoc. reflexivity.
Qed.

(** * The array *)
Lemma with_role_cons k t r l : with_role k ((t, r) :: l) = (if role_eqb r k then [t] else []) ++ with_role k l.
Proof. unfold with_role. cbn. destruct (role_eqb r k); reflexivity. Qed.
Lemma others_cons t r l : others ((t, r) :: l) = (match r with Operand | Unread => [] | _ => [t] end) ++ others l.
Proof. unfold others. destruct r; reflexivity. Qed.
Lemma with_role_all k j ts : with_role k (all_of j ts) = if role_eqb j k then ts else [].
Proof.
  unfold all_of. induction ts as [|t ts IH]; cbn [map]; [now destruct (role_eqb j k)|]. rewrite with_role_cons, IH. destruct (role_eqb j k); reflexivity.
Qed.
Lemma others_all j ts : others (all_of j ts) = match j with Operand | Unread => [] | _ => ts end.
Proof. unfold all_of. induction ts as [|t ts IH]; cbn [map]; [now destruct j|]. rewrite others_cons, IH. destruct j; reflexivity. Qed.

Definition resolved (r : result A) (pre ns rest : list text) (a : A) (sc : list (text * role) * list opt * bool) : Prop :=
  let '(l, os, ok) := sc in
  match play a os with
  | Next a' =>
      if ok then r = Finished A (pre ++ others l ++ ns ++ operands l) (length pre + length (others l)) a'
      else r = Failed A (pre ++ others l ++ ns ++ operands l ++ unread l) a'
  | Refuse a' => exists b, r = Failed A b a' /\ Permutation b (pre ++ ns ++ rest)
  | Overrun => r = Out_of_bounds A
  end.

Lemma nth_here (pre ns rest : list text) : nth_error (pre ++ ns ++ rest) (length pre + length ns) = hd_error rest.
Proof.
  rewrite nth_error_app2 by lia. rewrite nth_error_app2 by lia. replace (_ - _) with 0 by lia. now destruct rest.
Qed.
Lemma nth_after (pre ns : list text) t rest : nth_error (pre ++ ns ++ t :: rest) (S (length pre + length ns)) = hd_error rest.
Proof.
  rewrite nth_error_app2 by lia. rewrite nth_error_app2 by lia. replace (_ - _) with 1 by lia. now destruct rest.
Qed.

Lemma skip_next t nx os : element_ev t nx = (os, Stop true) -> nx <> None.
Proof.
  assert (T : forall f n o os, treat_ev f n o true = (os, Stop true) -> o <> None).
  { intros f n o os'. unfold treat_ev. destruct (match f with Some x => Some x | None => find_dummy usage end); [|discriminate].
    destruct (check_arg d n o); try discriminate. destruct o; [discriminate|intros H; discriminate H]. }
  assert (T0 : forall f n o os, treat_ev f n o false <> (os, Stop true)).
  { intros f n o os'. unfold treat_ev. destruct (match f with Some x => Some x | None => find_dummy usage end); [|discriminate].
    destruct (check_arg d n o); try discriminate. destruct o; intros H; discriminate H. }
  assert (L : forall f p n os, long_ev f p n nx = (os, Stop true) -> nx <> None).
  { intros f p n os'. unfold long_ev. destruct (attached n); [|apply T]. intros H. now apply T0 in H. }
  assert (S_ : forall t os, short_ev t nx = (os, Stop true) -> nx <> None).
  { induction t0 as [|c r IH]; intros os'; [discriminate|]. cbn [short_ev]. destruct r as [|c' r].
    - destruct (treat_ev (find_short usage c) [c] nx true) as [o1 [|k|]] eqn:E; cbn; try discriminate. intros [= -> ->]. exact (T _ _ _ _ E).
    - destruct (treat_ev (find_short usage c) (c :: c' :: r) (Some (c' :: r)) false) as [o1 [|k|]] eqn:E; try discriminate.
      + destruct (short_ev (c' :: r) nx) as [o2 f2]. intros [= <- ->]. exact (IH _ eq_refl).
      + intros [= -> ->]. now apply T0 in E. }
  unfold element_ev. destruct t as [|x [|c n]]; try discriminate. destruct (Ascii.eqb c "-"); [apply L|]. destruct single_minus; [|apply S_].
  destruct (find_long usage min (c :: n)); [apply L|apply S_].
Qed.

Lemma work_scan gnu : forall fuel rest pre ns a, length rest < fuel ->
  resolved (work A perform usage single_minus min gnu fuel (pre ++ ns ++ rest) (length pre + length ns) (length ns) a) pre ns rest a (scan gnu rest).
Proof.
  induction fuel as [|f IH]; intros rest pre ns a Hf; [lia|]. cbn [work]. rewrite nth_here. destruct rest as [|t r].
  - cbn. rewrite !app_nil_r. f_equal. lia.
  - cbn [hd_error]. cbn [scan]. destruct (is_option t) eqn:Io; cbn [negb].
    2:{ destruct gnu.
        - specialize (IH r pre (ns ++ [t]) a). cbn in Hf. specialize (IH ltac:(lia)).
          replace (pre ++ (ns ++ [t]) ++ r) with (pre ++ ns ++ t :: r) in IH by (now rewrite <- (app_assoc ns)).
          rewrite app_length in IH. cbn [length] in IH. rewrite Nat.add_1_r, Nat.add_succ_r in IH.
          destruct (scan true r) as [[l os] ok]. unfold resolved in *. unfold operands, unread in *. rewrite others_cons, !with_role_cons. cbn [role_eqb app] in *.
          destruct (play a os) as [b|b|]; [|destruct IH as (x & -> & P); exists x; split; [reflexivity|];
            (etransitivity; [exact P|]); rewrite <- (app_assoc ns); reflexivity|exact IH].
          destruct ok; rewrite IH; rewrite <- (app_assoc ns); reflexivity.
        - unfold resolved. cbn [play]. unfold operands. rewrite others_all, with_role_all. cbn. f_equal. lia. }
    destruct (is_terminator t) eqn:It.
    { unfold resolved. cbn [play]. unfold operands. rewrite others_cons, with_role_cons, with_role_all, others_all. cbn [role_eqb app length].
      rewrite shift_rot. f_equal. lia. }
    rewrite nth_after. pose proof (element_played t (hd_error r) a) as E.
    destruct (element_ev t (hd_error r)) as [os fi] eqn:Ev. unfold played in E. cbn [fst snd] in E. cbn in Hf.
    assert (S1 : forall b, play a os = Next b -> resolved (work A perform usage single_minus min gnu f (shift (pre ++ ns ++ t :: r) (length pre + length ns) (length ns))
        (S (length pre + length ns)) (length ns) b) pre ns (t :: r) a (let '(l, os', ok) := scan gnu r in ((t, Option_) :: l, os ++ os', ok))).
    { intros b P. rewrite shift_rot. specialize (IH r (pre ++ [t]) ns b ltac:(lia)). rewrite app_length in IH. cbn [length] in IH.
      replace (length pre + 1 + length ns) with (S (length pre + length ns)) in IH by lia. rewrite <- app_assoc in IH. cbn [app] in IH.
      destruct (scan gnu r) as [[l os'] ok]. unfold resolved in *. rewrite play_app, P. unfold operands, unread in *. rewrite others_cons, !with_role_cons. cbn [role_eqb app] in *.
      destruct (play b os') as [c|c|]; [| |exact IH].
      - destruct ok; rewrite IH; rewrite <- ?app_assoc; cbn [app]; f_equal; rewrite app_length; cbn; lia.
      - destruct IH as (x & -> & Pm). exists x. split; [reflexivity|]. etransitivity; [exact Pm|]. rewrite <- app_assoc. cbn.
        apply Permutation_app_head. apply Permutation_middle. }
    assert (Sk : forall b, play a os = Refuse b -> resolved (match element A perform usage single_minus min t (hd_error r) a with
        | Again _ a' | Taken _ false a' => work A perform usage single_minus min gnu f (shift (pre ++ ns ++ t :: r) (length pre + length ns) (length ns)) (S (length pre + length ns)) (length ns) a'
        | Taken _ true a' => work A perform usage single_minus min gnu f (shift (shift (pre ++ ns ++ t :: r) (length pre + length ns) (length ns)) (S (length pre + length ns)) (length ns)) (S (S (length pre + length ns))) (length ns) a'
        | Fatal _ false a' => Failed A (pre ++ ns ++ t :: r) a'
        | Fatal _ true a' => Failed A (shift (pre ++ ns ++ t :: r) (length pre + length ns) (length ns)) a'
        | Out _ => Out_of_bounds A end) pre ns (t :: r) a (([] : list (text * role)), os, true)).
    { intros b P. rewrite P in E. destruct E as (k & -> & _). unfold resolved. rewrite P. destruct k; eexists; (split; [reflexivity|]); [|reflexivity].
      rewrite shift_rot. apply Permutation_app_head. apply Permutation_middle. }
    assert (Rf : forall l os' ok e b, play a os = Refuse b -> resolved e pre ns (t :: r) a ([], os, true) -> resolved e pre ns (t :: r) a (l, os ++ os', ok)).
    { intros l os' ok e b P. unfold resolved. rewrite play_app, P. trivial. }
    assert (Ov : forall l os' ok e, play a os = Overrun -> e = Out_of_bounds A -> resolved e pre ns (t :: r) a (l, os ++ os', ok)).
    { intros l os' ok e P ->. unfold resolved. rewrite play_app, P. reflexivity. }
    destruct fi as [|[|]|].
    + destruct (play a os) as [b|b|] eqn:P.
      * rewrite E. exact (S1 b eq_refl).
      * destruct (scan gnu r) as [[l os'] ok]. eapply Rf; [reflexivity|]. exact (Sk b eq_refl).
      * destruct (scan gnu r) as [[l os'] ok]. apply Ov; [reflexivity|]. now rewrite E.
    + destruct r as [|v r']; [exfalso; now apply skip_next in Ev|].
      destruct (play a os) as [b|b|] eqn:P.
      * rewrite E. rewrite shift_rot. cbn [length] in Hf. specialize (IH r' (pre ++ [t; v]) ns b ltac:(lia)). rewrite app_length in IH. cbn [length] in IH.
        replace (length pre + 2 + length ns) with (S (S (length pre + length ns))) in IH by lia. rewrite <- app_assoc in IH. cbn [app] in IH.
        replace (shift (pre ++ t :: ns ++ v :: r') (S (length pre + length ns)) (length ns)) with (pre ++ t :: v :: ns ++ r').
        2:{ pose proof (shift_rot (pre ++ [t]) ns v r') as Q. rewrite <- !app_assoc in Q. cbn [app] in Q. rewrite app_length in Q. cbn [length] in Q.
            replace (length pre + 1 + length ns) with (S (length pre + length ns)) in Q by lia. symmetry. exact Q. }
        destruct (scan gnu r') as [[l os'] ok]. unfold resolved in *. rewrite play_app, P. unfold operands, unread in *. rewrite !others_cons, !with_role_cons. cbn [role_eqb app] in *.
        destruct (play b os') as [c|c|]; [| |exact IH].
        { destruct ok; rewrite IH; rewrite <- ?app_assoc; cbn [app]; f_equal; rewrite app_length; cbn; lia. }
        { destruct IH as (x & -> & Pm). exists x. split; [reflexivity|]. etransitivity; [exact Pm|]. rewrite <- app_assoc. cbn.
          apply Permutation_app_head. rewrite <- (Permutation_middle ns (v :: r') t). constructor. apply Permutation_middle. }
      * destruct (scan gnu r') as [[l os'] ok]. eapply Rf; [reflexivity|]. exact (Sk b eq_refl).
      * destruct (scan gnu r') as [[l os'] ok]. apply Ov; [reflexivity|]. now rewrite E.
    + destruct (play a os) as [b|b|] eqn:P.
      * rewrite E. exact (S1 b eq_refl).
      * destruct (scan gnu r) as [[l os'] ok]. eapply Rf; [reflexivity|]. exact (Sk b eq_refl).
      * destruct (scan gnu r) as [[l os'] ok]. apply Ov; [reflexivity|]. now rewrite E.
    + destruct (play a os) as [b|b|] eqn:P.
      * rewrite E. unfold resolved. rewrite P. unfold operands, unread. rewrite others_all, !with_role_all. reflexivity.
      * rewrite <- (app_nil_r os). eapply Rf; [reflexivity|]. exact (Sk b eq_refl).
      * rewrite E. unfold resolved. rewrite P. reflexivity.
Qed.

Lemma workhorse_scan gnu argv a : resolved (workhorse A perform usage single_minus min gnu argv a) [] [] argv a (scan gnu argv).
Proof. exact (work_scan gnu (S (length argv)) argv [] [] a (Nat.lt_succ_diag_r _)). Qed.
End Act.
End Scan.

(** * Names *)
Lemma stem_ex n : exists p, stem n p (attached n).
Proof.
  induction n as [|c r (p & Hp & E)]; [exists []; now split|]. cbn [attached]. destruct (Ascii.eqb c "=") eqn:C.
  - apply Ascii.eqb_eq in C. subst c. exists []. now split.
  - exists (c :: p). split; [|destruct (attached r); cbn; now rewrite E at 1]. intros [H|H]; [subst c; discriminate C|exact (Hp H)].
Qed.
Lemma streq_stem a n p v : stem n p v -> ~ In "="%char a -> (streq a n = true <-> a = p).
Proof.
  intros (Hp & ->). revert p Hp. induction a as [|x a IH]; intros p Hp Ha.
  - destruct p as [|y p].
    + destruct v; cbn; [|easy]. easy.
    + assert (streq [] (match v with Some x => (y :: p) ++ "="%char :: x | None => y :: p end) = Ascii.eqb y "=") as -> by (now destruct v).
      split; [|easy]. intros H. apply Ascii.eqb_eq in H. subst y. destruct Hp. now left.
  - destruct p as [|y p].
    + split; [|easy]. destruct v; cbn [app streq]; [|easy]. intros H. apply andb_true_iff in H. destruct H as [H _]. apply Ascii.eqb_eq in H. subst x. destruct Ha. now left.
    + assert (streq (x :: a) (match v with Some z => (y :: p) ++ "="%char :: z | None => y :: p end) =
              Ascii.eqb x y && streq a (match v with Some z => p ++ "="%char :: z | None => p end)) as -> by (now destruct v).
      rewrite andb_true_iff, Ascii.eqb_eq, IH; [|intros H; apply Hp; now right|intros H; apply Ha; now right].
      split; [intros (-> & ->); reflexivity|now intros [= -> ->]].
Qed.
Lemma streqabbr_stem a n p v min : stem n p v -> ~ In "="%char a ->
  (streqabbr a n min = true <-> a = p \/ (0 < min <= Z.of_nat (length p))%Z /\ exists q, a = p ++ q).
Proof.
  intros (Hp & ->) Ha. unfold streqabbr.
  enough (forall k p a, ~ In "="%char p -> ~ In "="%char a ->
    (streqabbr_from k a (match v with Some x => p ++ "="%char :: x | None => p end) min = true <->
     a = p \/ (0 < min <= Z.of_nat (k + length p))%Z /\ exists q, a = p ++ q)) as G by (exact (G 0 p a Hp Ha)).
  clear. intros k p. revert k. induction p as [|y p IH]; intros k a Hp Ha.
  - assert (streqabbr_from k a (match v with Some x => [] ++ "="%char :: x | None => [] end) min =
      match a with [] => true | _ => (0 <? min)%Z && (min <=? Z.of_nat k)%Z end) as ->.
    { destruct a as [|x a]; [now destruct v|]. destruct v; cbn [app streqabbr_from]; [|now rewrite andb_true_r].
      destruct (Ascii.eqb x "=") eqn:E; [apply Ascii.eqb_eq in E; subst x; destruct Ha; now left|]. now rewrite andb_true_r. }
    cbn [length]. rewrite Nat.add_0_r. destruct a as [|x a]; [split; [now left|trivial]|].
    rewrite andb_true_iff. split; [intros H; right; split; [lia|now exists (x :: a)]|]. intros [H|[H _]]; [discriminate H|lia].
  - destruct a as [|x a].
    + assert (streqabbr_from k [] (match v with Some x => (y :: p) ++ "="%char :: x | None => y :: p end) min = Ascii.eqb y "=") as -> by (now destruct v).
      split; [intros H; apply Ascii.eqb_eq in H; subst y; destruct Hp; now left|]. intros [H|[_ [q H]]]; discriminate H.
    + assert (streqabbr_from k (x :: a) (match v with Some z => (y :: p) ++ "="%char :: z | None => y :: p end) min =
        if Ascii.eqb x y then streqabbr_from (S k) a (match v with Some z => p ++ "="%char :: z | None => p end) min else (0 <? min)%Z && (min <=? Z.of_nat k)%Z && Ascii.eqb y "=") as ->.
      { destruct v; reflexivity. }
      destruct (Ascii.eqb x y) eqn:E.
      * apply Ascii.eqb_eq in E. subst x. rewrite IH; [|intros H; apply Hp; now right|intros H; apply Ha; now right]. cbn [length]. rewrite Nat.add_succ_r. cbn [Nat.add].
        split; [intros [->|[H [q ->]]]; [now left|right; split; [lia|now exists q]]|]. intros [[= ->]|[H [q [= ->]]]]; [now left|right; split; [lia|now exists q]].
      * assert (Ascii.eqb y "=" = false) as -> by (destruct (Ascii.eqb y "=") eqn:F; [apply Ascii.eqb_eq in F; subst y; destruct Hp; now left|reflexivity]).
        rewrite andb_false_r. split; [discriminate|]. apply Ascii.eqb_neq in E. intros [[= H _]|[_ [q [= H _]]]]; now elim E.
Qed.

Lemma search_some f usage d r : search f usage = Some (d, r) -> exists a, usage = a ++ d :: r /\ f d = true /\ Forall (fun e => f e = false) a.
Proof.
  induction usage as [|e u IH]; [discriminate|]. cbn. destruct (f e) eqn:F.
  - intros [= -> ->]. exists []. now split.
  - intros H. destruct (IH H) as (a & -> & Fd & Fa). exists (e :: a). split; [reflexivity|]. split; [exact Fd|]. now constructor.
Qed.
Lemma search_none f usage : search f usage = None -> Forall (fun e => f e = false) usage.
Proof. induction usage as [|e u IH]; [constructor|]. cbn. destruct (f e) eqn:F; [discriminate|]. intros H. constructor; [exact F|now apply IH]. Qed.

Section Names.
Variable usage : list descriptor.
Variable min : Z.
Hypothesis Hs : sane usage.
Lemma sane_in d : In d usage -> ~ In "="%char (longopt d).
Proof. intros H. exact (proj1 (Forall_forall _ _) Hs d H). Qed.

Lemma impl_Forall (P Q : descriptor -> Prop) l : (forall d, In d l -> P d -> Q d) -> Forall P l -> Forall Q l.
Proof. intros H F. apply Forall_forall. intros d I. exact (H d I (proj1 (Forall_forall _ _) F d I)). Qed.

Lemma find_long_some n p v d : stem n p v -> find_long usage min n = Some d -> names usage min p d.
Proof.
  intros St. unfold find_long. destruct (search _ usage) as [[e r]|] eqn:S1.
  - intros [= ->]. apply search_some in S1. destruct S1 as (a & U & F & Fa). left. exists a, r. split; [exact U|]. unfold long_name.
    split; [apply (streq_stem _ _ _ _ St) in F; [exact F|apply sane_in; rewrite U; apply in_elt]|].
    eapply impl_Forall; [|exact Fa]. intros x Hx Fx Q. cbn in Fx. rewrite (proj2 (streq_stem _ _ _ _ St (sane_in x ltac:(rewrite U; apply in_or_app; now left))) Q) in Fx. discriminate Fx.
  - apply search_none in S1. destruct (0 <? min)%Z eqn:M; [|discriminate].
    destruct (search (fun x => streqabbr (longopt x) n min) usage) as [[e r]|] eqn:S2; [|discriminate].
    destruct (search (fun x => streqabbr (longopt x) n min) r) eqn:S3; [discriminate|]. intros [= ->].
    apply search_some in S2. destruct S2 as (a & U & F & Fa). apply search_none in S3.
    assert (NL : Forall (fun e => ~ long_name p e) usage).
    { eapply impl_Forall; [|exact S1]. intros x Hx Fx Q. cbn in Fx. rewrite (proj2 (streq_stem _ _ _ _ St (sane_in x Hx)) Q) in Fx. discriminate Fx. }
    right. split; [exact NL|]. exists a, r. split; [exact U|]. split.
    + apply (streqabbr_stem _ _ _ _ _ St (sane_in d ltac:(rewrite U; apply in_elt))) in F. destruct F as [F|F]; [|exact F].
      exfalso. exact (proj1 (Forall_forall _ _) NL d ltac:(rewrite U; apply in_elt) F).
    + apply Forall_app. split; [eapply impl_Forall; [|exact Fa]|eapply impl_Forall; [|exact S3]]; intros x Hx Fx Q; cbn in Fx;
        (assert (Ix : In x usage) by (rewrite U; apply in_or_app; first [now left | right; now right]));
        rewrite (proj2 (streqabbr_stem _ _ _ _ min St (sane_in x Ix)) (or_intror Q)) in Fx; discriminate Fx.
Qed.
Lemma find_long_none n p v : stem n p v -> find_long usage min n = None -> nameless usage min p.
Proof.
  intros St. unfold find_long. destruct (search _ usage) as [[e r]|] eqn:S1; [discriminate|]. apply search_none in S1. intros H d N.
  assert (NL : forall x, In x usage -> ~ long_name p x).
  { intros x Hx Q. pose proof (proj1 (Forall_forall _ _) S1 x Hx) as Fx. cbn in Fx. rewrite (proj2 (streq_stem _ _ _ _ St (sane_in x Hx)) Q) in Fx. discriminate Fx. }
  destruct N as [(a & b & U & L & _)|[_ (a & b & U & L & Fo)]]; [exact (NL d ltac:(rewrite U; apply in_elt) L)|].
  pose proof L as L'. destruct L' as [Hm _]. destruct (0 <? min)%Z eqn:M; [|lia].
  assert (AB : forall x, In x usage -> streqabbr (longopt x) n min = true -> abbreviation min p x).
  { intros x Hx Q. apply (streqabbr_stem _ _ _ _ _ St (sane_in x Hx)) in Q. destruct Q as [Q|Q]; [exfalso; exact (NL x Hx Q)|exact Q]. }
  assert (Fd : streqabbr (longopt d) n min = true) by (apply (streqabbr_stem _ _ _ _ _ St (sane_in d ltac:(rewrite U; apply in_elt))); now right).
  destruct (search (fun x => streqabbr (longopt x) n min) usage) as [[e r]|] eqn:S2.
  - destruct (search (fun x => streqabbr (longopt x) n min) r) as [[e2 r2]|] eqn:S3; [|discriminate H].
    apply search_some in S2. destruct S2 as (a1 & U1 & F1 & Fa1). apply search_some in S3. destruct S3 as (a2 & U2 & F2 & _).
    rewrite Forall_app in Fo. destruct Fo as [Foa Fob]. rewrite Forall_forall in Foa, Fob.
    assert (Ie : In e usage) by (rewrite U1; apply in_elt). assert (Ie2 : In e2 usage) by (rewrite U1, U2; apply in_or_app; right; right; apply in_elt).
    pose proof (AB e Ie F1) as A1. pose proof (AB e2 Ie2 F2) as A2.
    (* the first match is at the position of d *)
    assert (L1 : length a1 = length a).
    { destruct (Nat.lt_trichotomy (length a1) (length a)) as [Q|[Q|Q]]; [exfalso|exact Q|exfalso].
      - apply (Foa e); [|exact A1]. assert (N1 : nth_error usage (length a1) = Some e) by (rewrite U1, nth_error_app2, Nat.sub_diag by lia; reflexivity).
        rewrite U, nth_error_app1 in N1 by exact Q. exact (nth_error_In _ _ N1).
      - assert (N1 : nth_error usage (length a) = Some d) by (rewrite U, nth_error_app2, Nat.sub_diag by lia; reflexivity).
        rewrite U1, nth_error_app1 in N1 by exact Q. apply nth_error_In in N1. pose proof (proj1 (Forall_forall _ _) Fa1 d N1) as X. cbn in X. congruence. }
    assert (R : r = b). { assert (X : skipn (S (length a)) usage = b) by (rewrite U; clear; induction a; cbn; [reflexivity|exact IHa]).
      rewrite <- L1, U1 in X. rewrite <- X. clear. induction a1; cbn; [reflexivity|exact IHa1]. }
    apply (Fob e2); [|exact A2]. rewrite <- R, U2. apply in_elt.
  - apply search_none in S2. pose proof (proj1 (Forall_forall _ _) S2 d ltac:(rewrite U; apply in_elt)) as X. cbn in X. congruence.
Qed.

Lemma instr_in c t : instr c t = true <-> In c t.
Proof. induction t as [|x r IH]; cbn; [easy|]. rewrite orb_true_iff, Ascii.eqb_eq, IH. reflexivity. Qed.
Lemma first_search (P : descriptor -> Prop) f d r : (forall e, f e = true <-> P e) -> search f usage = Some (d, r) -> is_first P usage d.
Proof.
  intros E H. apply search_some in H. destruct H as (a & U & F & Fa). exists a, r. split; [exact U|]. split; [now apply E|].
  eapply impl_Forall; [|exact Fa]. intros x _ Fx Q. apply E in Q. cbn in Fx. congruence.
Qed.
Lemma none_search (P : descriptor -> Prop) f : (forall e, f e = true <-> P e) -> search f usage = None -> Forall (fun e => ~ P e) usage.
Proof. intros E H. apply search_none in H. eapply impl_Forall; [|exact H]. intros x _ Fx Q. apply E in Q. cbn in Fx. congruence. Qed.
Lemma dummy_unknown : unknown usage (find_dummy usage).
Proof.
  unfold find_dummy. set (f := fun d => match shortopt d with [] => match longopt d with [] => true | _ => false end | _ => false end).
  assert (E : forall e, f e = true <-> dummy e). { intros e. unfold f, dummy. destruct (shortopt e), (longopt e); split; try easy; intros [A B]; discriminate. }
  destruct (search f usage) as [[d r]|] eqn:S; cbn [option_map fst unknown].
  - exact (first_search dummy f d r E S).
  - exact (none_search dummy f E S).
Qed.
Definition or_dummy (f : option descriptor) := match f with Some d => Some d | None => find_dummy usage end.
Lemma short_for c : for_short usage c (or_dummy (find_short usage c)).
Proof.
  unfold find_short. assert (E : forall e, instr c (shortopt e) = true <-> short_name c e) by (intros e; apply instr_in).
  destruct (search (fun d => instr c (shortopt d)) usage) as [[d r]|] eqn:S; cbn [option_map fst or_dummy].
  - left. exists d. split; [|reflexivity]. exact (first_search _ _ d r E S).
  - right. split; [|exact dummy_unknown]. exact (none_search _ _ E S).
Qed.
Lemma long_for n p v : stem n p v -> for_long usage min p (or_dummy (find_long usage min n)).
Proof.
  intros St. destruct (find_long usage min n) as [d|] eqn:F; cbn [or_dummy].
  - left. exists d. split; [|reflexivity]. exact (find_long_some n p v d St F).
  - right. split; [exact (find_long_none n p v St F)|exact dummy_unknown].
Qed.

Variable single_minus : bool.

Lemma treat_judged f n o d : treat_ev usage f n o d =
  match judged (or_dummy f) n o with
  | Illegal => ([], Bad)
  | Read os true => (os, Stop (match o with Some _ => d | None => false end))
  | Read os false => (os, Cont)
  end.
Proof. unfold treat_ev, judged, or_dummy. destruct (match f with Some x => Some x | None => find_dummy usage end) as [e|]; [|reflexivity]. now destruct (check_arg e n o). Qed.

Definition means (nx : option text) (t : text) (ev : list opt * fin) : Prop :=
  match ev with
  | (os, Bad) => bad_option usage min single_minus nx t os
  | (os, Stop true) => options_of usage min single_minus nx t os true
  | (os, _) => options_of usage min single_minus nx t os false
  end.
Lemma stem_fun n p v p' v' : stem n p v -> stem n p' v' -> p = p' /\ v = v'.
Proof.
  intros (Hp & ->) (Hp' & E). revert p' Hp' E. induction p as [|x p IH]; intros p' Hp' E.
  - destruct p' as [|y p']; [destruct v, v'; cbn in E; [injection E as <-; split; reflexivity|discriminate|discriminate|now split]|].
    destruct v as [v|]; [|destruct v'; discriminate E]. exfalso. apply Hp'. left. destruct v'; injection E as E _; now rewrite E.
  - destruct p' as [|y p'].
    + exfalso. apply Hp. left. destruct v, v'; cbn in E; try discriminate E; injection E as E _; exact E.
    + assert (x = y /\ (match v with Some z => p ++ "="%char :: z | None => p end) = match v' with Some z => p' ++ "="%char :: z | None => p' end) as [-> E'].
      { destruct v, v'; cbn in E; injection E as -> E; now split. }
      destruct (IH ltac:(intros H; apply Hp; now right) p' ltac:(intros H; apply Hp'; now right) E') as [-> ->]. now split.
Qed.
Lemma long_means nx t n f : 
  (forall p, stem n p (attached n) -> long_form usage min single_minus t p (attached n) (or_dummy f)) -> means nx t (long_ev usage f t n nx).
Proof.
  intros H. destruct (stem_ex n) as [p Hp]. specialize (H p Hp). unfold long_ev. destruct (attached n) as [v|] eqn:Av; rewrite treat_judged.
  - destruct (judged (or_dummy f) t (Some v)) as [os [|]|] eqn:J; cbn.
    + exact (long_attached _ _ _ nx t p v _ os true H J).
    + exact (long_attached _ _ _ nx t p v _ os false H J).
    + exact (bad_long_attached _ _ _ nx t p v _ H J).
  - destruct (judged (or_dummy f) t nx) as [os [|]|] eqn:J; cbn.
    + pose proof (long_detached _ _ _ nx t p _ os true H J) as G. destruct nx; exact G.
    + exact (long_detached _ _ _ nx t p _ os false H J).
    + exact (bad_long_detached _ _ _ nx t p _ H J).
Qed.
Lemma short_means nx n : match short_ev usage n nx with
  | (os, Bad) => bad_group usage nx n os
  | (os, Stop true) => group usage nx n os true
  | (os, _) => group usage nx n os false
  end.
Proof.
  induction n as [|c r IH]; [constructor|]. cbn [short_ev]. pose proof (short_for c) as Fc. destruct r as [|c' r].
  - rewrite treat_judged. destruct (judged (or_dummy (find_short usage c)) [c] nx) as [os [|]|] eqn:J; cbn.
    + pose proof (group_last _ nx c _ os true Fc J) as G. destruct nx; exact G.
    + rewrite app_nil_r. exact (group_last _ nx c _ os false Fc J).
    + exact (bad_last _ nx c _ Fc J).
  - rewrite treat_judged. destruct (judged (or_dummy (find_short usage c)) (c :: c' :: r) (Some (c' :: r))) as [os [|]|] eqn:J.
    + exact (group_attached _ nx c (c' :: r) _ os Fc ltac:(discriminate) J).
    + destruct (short_ev usage (c' :: r) nx) as [os' [|[|]|]].
      1-3: exact (group_more _ nx c (c' :: r) _ os os' _ Fc ltac:(discriminate) J IH).
      exact (bad_more _ nx c (c' :: r) _ os os' Fc ltac:(discriminate) J IH).
    + exact (bad_attached _ nx c (c' :: r) _ Fc ltac:(discriminate) J).
Qed.
Lemma element_means nx t : looks_like_option t -> means nx t (element_ev usage min single_minus t nx).
Proof.
  intros (c & n & ->). cbn [element_ev]. destruct (Ascii.eqb c "-") eqn:C.
  - apply Ascii.eqb_eq in C. subst c. apply long_means. intros p Hp. exists n. split; [exact Hp|]. left. split; [reflexivity|]. exact (long_for n p _ Hp).
  - apply Ascii.eqb_neq in C.
    assert (G : (single_minus = true -> find_long usage min (c :: n) = None) -> means nx ("-"%char :: c :: n) (short_ev usage (c :: n) nx)).
    { intros Hn. pose proof (short_means nx (c :: n)) as G.
      assert (F : group_form usage min single_minus ("-"%char :: c :: n) (c :: n)).
      { split; [reflexivity|]. split; [discriminate|]. split; [exact C|]. intros Sm p v St. exact (find_long_none _ _ _ St (Hn Sm)). }
      destruct (short_ev usage (c :: n) nx) as [os [|[|]|]]; cbn [means].
      1-3: exact (short_group _ _ _ nx _ _ os _ F G). exact (bad_short_group _ _ _ nx _ _ os F G). }
    destruct single_minus eqn:Sm; [|apply G; discriminate]. destruct (find_long usage min (c :: n)) as [d|] eqn:F; [|apply G; intros _; exact eq_refl].
    apply long_means. intros p Hp. exists (c :: n). split; [exact Hp|]. right. exists d. split; [exact Sm|]. split; [reflexivity|]. split; [exact C|].
    split; [exact (find_long_some _ _ _ _ Hp F)|reflexivity].
Qed.

Lemma is_option_spec t : is_option t = true <-> looks_like_option t.
Proof.
  unfold is_option, looks_like_option. destruct t as [|c [|d r]]; [split; [discriminate|intros (x & y & H); discriminate H]..|].
  rewrite Ascii.eqb_eq. split; [intros ->; now exists d, r|]. now intros (x & y & [= -> _ _]).
Qed.
Lemma is_terminator_spec t : is_terminator t = true <-> t = minus_minus.
Proof.
  unfold is_terminator, minus_minus. destruct t as [|c [|d [|e r]]]; try (split; [discriminate|intros H; discriminate H]).
  rewrite andb_true_iff, !Ascii.eqb_eq. cbn. split; [now intros (-> & ->)|now intros [= -> ->]].
Qed.
Lemma map_fst_all k ts : map fst (all_of k ts) = ts.
Proof. unfold all_of. rewrite map_map. cbn. apply map_id. Qed.
Lemma scan_reading gnu : forall n args, length args <= n -> forall l os ok, scan usage min single_minus gnu args = (l, os, ok) ->
  reading usage min single_minus gnu l os ok /\ map fst l = args.
Proof.
  induction n as [|n IH]; intros args Hn l os ok.
  { destruct args; [|cbn in Hn; lia]. intros [= <- <- <-]. split; [constructor|reflexivity]. }
  destruct args as [|t r]; [intros [= <- <- <-]; split; [constructor|reflexivity]|]. cbn [scan].
  cbn in Hn. destruct (is_option t) eqn:Io; cbn [negb].
  2:{ assert (No : ~ looks_like_option t) by (rewrite <- is_option_spec; congruence). destruct gnu.
      - destruct (scan usage min single_minus true r) as [[l1 os1] ok1] eqn:E. intros [= <- <- <-]. destruct (IH r ltac:(lia) _ _ _ E) as [R M].
        split; [now apply read_operand|cbn; now rewrite M].
      - intros [= <- <- <-]. split; [exact (read_posix _ _ _ false t r eq_refl No)|exact (map_fst_all Operand (t :: r))]. }
  apply is_option_spec in Io. destruct (is_terminator t) eqn:It.
  { apply is_terminator_spec in It. subst t. intros [= <- <- <-]. split; [apply read_terminator|cbn; now rewrite map_fst_all]. }
  assert (Nt : t <> minus_minus) by (rewrite <- is_terminator_spec; congruence).
  pose proof (element_means (hd_error r) t Io) as Me. destruct (element_ev usage min single_minus t (hd_error r)) as [os1 fi] eqn:Ev.
  assert (G : options_of usage min single_minus (hd_error r) t os1 false ->
     (let '(l, os', ok) := scan usage min single_minus gnu r in ((t, Option_) :: l, os1 ++ os', ok)) = (l, os, ok) -> reading usage min single_minus gnu l os ok /\ map fst l = t :: r).
  { intros Ho. destruct (scan usage min single_minus gnu r) as [[l1 os2] ok1] eqn:E. intros [= <- <- <-]. destruct (IH r ltac:(lia) _ _ _ E) as [R M].
    split; [apply read_option; [exact Io|exact Nt|rewrite M; exact Ho|exact R]|cbn; now rewrite M]. }
  destruct fi as [|[|]|]; cbn [means] in Me.
  - exact (G Me).
  - destruct r as [|v r']; [exfalso; now apply skip_next in Ev|].
    destruct (scan usage min single_minus gnu r') as [[l1 os2] ok1] eqn:E. intros [= <- <- <-]. cbn in Hn. destruct (IH r' ltac:(lia) _ _ _ E) as [R M].
    split; [|cbn; now rewrite M]. apply read_argument; assumption.
  - exact (G Me).
  - intros [= <- <- <-]. split; [exact (read_illegal _ _ _ gnu t r _ Io Nt Me)|exact (map_fst_all Unread (t :: r))].
Qed.
End Names.
