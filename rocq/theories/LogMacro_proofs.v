(** Proofs of C132. *)
From Coq Require Import List ZArith Arith Bool Lia.
From Verif Require Import LogMacro_model LogMacro_spec.

Lemma parse_mono n : forall j ts r, parse n j ts = Some r -> parse (S n) j ts = Some r.
Proof.
  induction n as [|n IH]; intros j ts r H; [discriminate|].
  remember (S n) as m. cbn [parse]. rewrite Heqm in H. cbn [parse] in H. destruct j.
  - destruct ts as [|[a| | | |c|] ts]; try exact H.
    + destruct (parse n Many ts) as [[x r']|] eqn:E; [|discriminate]. subst m. rewrite (IH _ _ _ E). exact H.
    + destruct (parse n One ts) as [[x r']|] eqn:E; [|discriminate]. subst m. rewrite (IH _ _ _ E).
      destruct r' as [|[a| | | |c'|] r']; try exact H.
      destruct (parse n One r') as [[y r2]|] eqn:E2; [|discriminate]. rewrite (IH _ _ _ E2). exact H.
  - assert (G : match parse n One ts with Some (x, r) => match parse n Many r with Some (y, r') => Some (Seq x y, r') | None => None end | None => None end = Some r ->
       match parse m One ts with Some (x, r) => match parse m Many r with Some (y, r') => Some (Seq x y, r') | None => None end | None => None end = Some r).
    { clear H. intros H. destruct (parse n One ts) as [[x r1]|] eqn:E; [|discriminate]. subst m. rewrite (IH _ _ _ E).
      destruct (parse n Many r1) as [[y r2]|] eqn:E2; [|discriminate]. rewrite (IH _ _ _ E2). exact H. }
    destruct ts as [|[a| | | |c|] ts]; first [exact H|exact (G H)].
Qed.
Lemma parse_le n m j ts r : n <= m -> parse n j ts = Some r -> parse m j ts = Some r.
Proof. induction 1 as [|m L IH]; intros H; [exact H|]. apply parse_mono. exact (IH H). Qed.

Lemma program_unique ts p p' : program ts p -> program ts p' -> p = p'.
Proof. intros [n H] [m H']. apply (parse_le _ (Nat.max n m)) in H; [|lia]. apply (parse_le _ (Nat.max n m)) in H'; [|lia]. congruence. Qed.

(** a sequence of statements is empty, or one and others *)
Lemma many_cons n ts p r : parse (S n) Many ts = Some (p, r) ->
  (p = Empty /\ r = ts /\ match ts with [] | TClose :: _ => True | _ => False end) \/
  (exists x r1 y, parse n One ts = Some (x, r1) /\ parse n Many r1 = Some (y, r) /\ p = Seq x y).
Proof.
  intros H. cbn [parse] in H.
  assert (G : match parse n One ts with Some (x, r) => match parse n Many r with Some (y, r') => Some (Seq x y, r') | None => None end | None => None end = Some (p, r) ->
    exists x r1 y, parse n One ts = Some (x, r1) /\ parse n Many r1 = Some (y, r) /\ p = Seq x y).
  { clear H. intros H. destruct (parse n One ts) as [[x r1]|] eqn:E; [|discriminate]. destruct (parse n Many r1) as [[y r2]|] eqn:E2; [|discriminate].
    injection H as <- <-. exists x, r1, y. auto. }
  destruct ts as [|[a| | | |c|] ts]; try (right; exact (G H)); injection H as <- <-; left; auto.
Qed.
Lemma cons_many n ts x r1 y r : parse n One ts = Some (x, r1) -> parse n Many r1 = Some (y, r) -> parse (S n) Many ts = Some (Seq x y, r).
Proof.
  intros H1 H2. cbn [parse]. destruct ts as [|[a| | | |c|] ts]; try (rewrite H1, H2; reflexivity); destruct n; discriminate.
Qed.

(** ** No semicolon before else after a brace or a semicolon *)
Inductive place := Other | Ended | SemiAfterEnd.
Definition scan (q : place) (t : token) : option place :=
  match t, q with
  | TElse, SemiAfterEnd => None
  | TSemi, Other => Some Ended
  | TSemi, _ => Some SemiAfterEnd
  | TClose, _ => Some Ended
  | _, _ => Some Other
  end.
Fixpoint scans (q : place) (ts : list token) : option place :=
  match ts with [] => Some q | t :: r => match scan q t with Some q' => scans q' r | None => None end end.
Lemma scans_app q a b : scans q (a ++ b) = match scans q a with Some q' => scans q' b | None => None end.
Proof. revert q. induction a as [|t a IH]; intros q; cbn [app scans]; [reflexivity|]. destruct (scan q t); [apply IH|reflexivity]. Qed.

Lemma parse_scan n : forall j ts p r, parse n j ts = Some (p, r) ->
  exists c, ts = c ++ r /\ match j with
    | One => scans Other c = Some Ended /\ forall q, scans q c <> None
    | Many => forall q, scans q c <> None
    end.
Proof.
  induction n as [|n IH]; intros j ts p r H; [discriminate|]. destruct j.
  - cbn [parse] in H. destruct ts as [|[a| | | |c|] ts]; try discriminate.
    + destruct ts as [|[] ts]; try discriminate. injection H as <- <-. exists [TDo a; TSemi]. split; [reflexivity|]. split; [reflexivity|]. intros []; discriminate.
    + injection H as <- <-. exists [TSemi]. split; [reflexivity|]. split; [reflexivity|]. intros []; discriminate.
    + destruct (parse n Many ts) as [[x r']|] eqn:E; [|discriminate]. destruct r' as [|[] r']; try discriminate. injection H as <- <-.
      destruct (IH _ _ _ _ E) as (c & -> & Hc). exists (TOpen :: c ++ [TClose]). split; [cbn; rewrite <- app_assoc; reflexivity|].
      assert (G : scans Other (c ++ [TClose]) = Some Ended).
      { rewrite scans_app. destruct (scans Other c) as [q|] eqn:Q; [|destruct (Hc _ Q)]. destruct q; reflexivity. }
      split; [cbn [scans scan]; exact G|]. intros q. replace (scans q (TOpen :: c ++ [TClose])) with (scans Other (c ++ [TClose])) by (destruct q; reflexivity). rewrite G. discriminate.
    + destruct (parse n One ts) as [[x r']|] eqn:E; [|discriminate]. destruct (IH _ _ _ _ E) as (d & -> & Hd & _).
      assert (Plain : r = r' -> exists c0, TIf c :: d ++ r' = c0 ++ r /\ scans Other c0 = Some Ended /\ forall q, scans q c0 <> None).
      { intros ->. exists (TIf c :: d). split; [reflexivity|]. split; [exact Hd|]. intros q. replace (scans q (TIf c :: d)) with (scans Other d) by (destruct q; reflexivity). rewrite Hd. discriminate. }
      destruct r' as [|[a| | | |c'|] r']; try (injection H as <- <-; apply Plain; reflexivity).
      destruct (parse n One r') as [[y r2]|] eqn:E2; [|discriminate]. injection H as <- <-. destruct (IH _ _ _ _ E2) as (d2 & -> & Hd2 & _).
      exists (TIf c :: d ++ TElse :: d2). split; [cbn; rewrite <- app_assoc; reflexivity|].
      assert (G : scans Other (d ++ TElse :: d2) = Some Ended) by (rewrite scans_app, Hd; exact Hd2).
      split; [exact G|]. intros q. replace (scans q (TIf c :: d ++ TElse :: d2)) with (scans Other (d ++ TElse :: d2)) by (destruct q; reflexivity). rewrite G. discriminate.
  - apply many_cons in H as [(-> & -> & _)|(x & r1 & y & H1 & H2 & ->)].
    + exists []. split; [reflexivity|]. intros q. discriminate.
    + destruct (IH _ _ _ _ H1) as (c1 & -> & _ & G1). destruct (IH _ _ _ _ H2) as (c2 & -> & G2). exists (c1 ++ c2). split; [apply app_assoc|].
      intros q. rewrite scans_app. specialize (G1 q). destruct (scans q c1); [apply G2|contradiction].
Qed.

Lemma expand_app b x y : expand b (x ++ y) = expand b x ++ expand b y.
Proof.
  induction x as [|t x IH]; [reflexivity|]. cbn [app expand]. destruct t as [a| | | |c|]; try (cbn; rewrite IH; reflexivity).
  destruct a; try (cbn; rewrite IH; reflexivity). rewrite IH. apply app_assoc.
Qed.

Lemma else_lemma : forall b ts, use_before_else b ts -> ~ well_formed (expand b ts).
Proof.
  intros b ts (a & m & u & r & -> & B) (p & n & H). destruct (parse_scan _ _ _ _ _ H) as (c & E & G). rewrite app_nil_r in E. subst c. specialize (G Other). apply G. clear G H.
  rewrite expand_app, scans_app. destruct (scans Other (expand b a)) as [q|]; [|reflexivity].
  cbn [app expand]. rewrite scans_app.
  assert (X : scans q (expansion b m u) = Some Ended \/ scans q (expansion b m u) = Some SemiAfterEnd).
  { destruct m; cbn [expansion]; [left; destruct q; reflexivity| |]; (destruct b; [left; destruct q; reflexivity|left; destruct q; reflexivity|destruct B as [B|B]; [discriminate|contradiction]]). }
  destruct X as [-> | ->]; reflexivity.
Qed.

(** ** Otherwise *)
Lemma written_tail ts c r : Forall written (c ++ r) -> Forall written r /\ (ts = c ++ r -> True).
Proof. intros H. apply Forall_app in H. split; [apply H|auto]. Qed.
Lemma before_else_tail b c r : ~ use_before_else b (c ++ r) -> ~ use_before_else b r.
Proof. intros H (a & m & u & z & -> & B). apply H. exists (c ++ a), m, u, z. split; [apply app_assoc|exact B]. Qed.

(** an expression is followed by a semicolon *)
Fixpoint semis (ts : list token) : Prop :=
  match ts with [] => True | TDo _ :: r => match r with TSemi :: _ => True | _ => False end /\ semis r | _ :: r => semis r end.
Lemma semis_tail c r : semis (c ++ r) -> semis r.
Proof. induction c as [|t c IH]; [auto|]. cbn [app semis]. destruct t; auto. intros [_ H]. auto. Qed.
Lemma parse_semis n : forall j ts p r, parse n j ts = Some (p, r) -> semis r -> semis ts.
Proof.
  induction n as [|n IH]; intros j ts p r H R; [discriminate|]. destruct j.
  - cbn [parse] in H. destruct ts as [|[a| | | |c|] ts]; try discriminate.
    + destruct ts as [|[] ts]; try discriminate. injection H as <- <-. split; [exact I|exact R].
    + injection H as <- <-. exact R.
    + destruct (parse n Many ts) as [[x r']|] eqn:E; [|discriminate]. destruct r' as [|[] r']; try discriminate. injection H as <- <-. exact (IH _ _ _ _ E R).
    + destruct (parse n One ts) as [[x r']|] eqn:E; [|discriminate]. apply (IH _ _ _ _ E).
      destruct r' as [|[] r']; try (injection H as <- <-; exact R). destruct (parse n One r') as [[y r2]|] eqn:E2; [|discriminate]. injection H as <- <-. exact (IH _ _ _ _ E2 R).
  - apply many_cons in H as [(-> & -> & _)|(x & r1 & y & H1 & H2 & ->)]; [exact R|]. exact (IH _ _ _ _ H1 (IH _ _ _ _ H2 R)).
Qed.

Definition same (b : build) (p p' : stmt) : Prop := forall W (w : world W) x t, fst (exec (act w) (test w) p' (x, t)) = intended w b p x.

Definition queued (prefix : str) (k : kind) (u : nat) : stmt :=
  Seq (Do AUsing) (Seq (If (CVerbosity Info) (Seq (Do AStream) (Seq (Do (AWrite prefix u)) (Seq (Do (AQueue k)) Empty)))) Empty).

Lemma leb_info k : Z.leb (kind_value Info) (kind_value k) = match k with Info => true | _ => false end.
Proof. destruct k; reflexivity. Qed.

Lemma queued_exec prefix k u W (w : world W) x t : fst (exec (act w) (test w) (queued prefix k u) (x, t)) = log_entry_call w prefix k u x.
Proof.
  unfold queued, log_entry_call. cbn [exec act test fst snd]. rewrite leb_info. destruct (verbosity_of w x); cbn [exec act fst snd]; try reflexivity.
  destruct (evaluate w u x) as [v x1]. cbn [fst snd app]. reflexivity.
Qed.

Definition Ends (b : build) (ts r e : list token) : Prop := e = [] \/ (e = [TSemi] /\ exists c m u, ts = c ++ [TDo (AUse m u); TSemi] ++ r /\ (m = LogUser \/ b <> Nothing)).

Lemma use_sim b m u z : exists n p' e, parse n One (expansion b m u ++ TSemi :: z) = Some (p', e ++ z) /\ same b (Do (AUse m u)) p' /\
  (e = [] \/ e = [TSemi] /\ (m = LogUser \/ b <> Nothing)).
Proof.
  destruct m.
  - exists 1, (Do (APrint u)), [TSemi]. split; [reflexivity|]. split; [|right; split; [reflexivity|left; reflexivity]].
    intros W w x t. cbn. destruct (evaluate w u x). reflexivity.
  - destruct b.
    + exists 20, (queued debug_prefix Info u), [TSemi]. split; [reflexivity|]. split; [intros W w x t; apply queued_exec|right; split; [reflexivity|right; discriminate]].
    + exists 20, (Seq (Do (ALambda u)) (Seq (Do AVoid) Empty)), [TSemi]. split; [reflexivity|]. split; [intros W w x t; reflexivity|right; split; [reflexivity|right; discriminate]].
    + exists 1, Empty, []. split; [reflexivity|]. split; [intros W w x t; reflexivity|left; reflexivity].
  - destruct b.
    + exists 20, (queued dev_prefix Warning u), [TSemi]. split; [reflexivity|]. split; [intros W w x t; apply queued_exec|right; split; [reflexivity|right; discriminate]].
    + exists 20, (Seq (Do (ALambda u)) (Seq (Do AVoid) Empty)), [TSemi]. split; [reflexivity|]. split; [intros W w x t; reflexivity|right; split; [reflexivity|right; discriminate]].
    + exists 1, Empty, []. split; [reflexivity|]. split; [intros W w x t; reflexivity|left; reflexivity].
Qed.

(** the state apart from the stream goes on as intended *)
Lemma same_seq b x y x' y' : same b x x' -> same b y y' -> same b (Seq x y) (Seq x' y').
Proof.
  intros Hx Hy W w v t. cbn [exec]. unfold intended. cbn [exec]. fold (intended w b x v). rewrite <- (Hx W w v t).
  destruct (exec (act w) (test w) x' (v, t)) as [v1 t1]. apply Hy.
Qed.
Lemma same_if b c x x' : same b x x' -> same b (If (COther c) x) (If (COther c) x').
Proof.
  intros Hx W w v t. unfold intended. cbn [exec test fst snd]. destruct (decide w c v) as [g v1]. destruct g; [apply Hx|reflexivity].
Qed.
Lemma same_ifelse b c x x' y y' : same b x x' -> same b y y' -> same b (IfElse (COther c) x y) (IfElse (COther c) x' y').
Proof.
  intros Hx Hy W w v t. unfold intended. cbn [exec test fst snd]. destruct (decide w c v) as [g v1]. destruct g; [apply Hx|apply Hy].
Qed.

Lemma expand_cons b t r : written t -> (forall m u, t <> TDo (AUse m u)) -> expand b (t :: r) = t :: expand b r.
Proof. intros _ H. destruct t as [a| | | |c|]; try reflexivity. destruct a; try reflexivity. exfalso. exact (H m u eq_refl). Qed.

Lemma sim b n : forall j ts p r, parse n j ts = Some (p, r) -> Forall written ts -> ~ use_before_else b ts -> semis ts ->
  exists m p' e, parse m j (expand b ts) = Some (p', e ++ expand b r) /\ same b p p' /\
    match j with One => Ends b ts r e | Many => e = [] end.
Proof.
  induction n as [|n IH]; intros j ts p r H F U D; [discriminate|]. destruct j.
  - cbn [parse] in H. destruct ts as [|[a| | | |c|] ts]; try discriminate; apply Forall_cons_iff in F as [Ft F].
    + destruct ts as [|[] ts]; try discriminate. injection H as <- <-. destruct a; try contradiction Ft.
      * exists 1, (Do (AOther n0)), []. split; [reflexivity|]. split; [intros W w x t; reflexivity|left; reflexivity].
      * destruct (use_sim b m u (expand b ts)) as (k & p' & e & P & S1 & He). exists k, p', e. split; [exact P|]. split; [exact S1|].
        destruct He as [->|[-> B]]; [left; reflexivity|right; split; [reflexivity|]]. exists [], m, u. split; [reflexivity|exact B].
    + injection H as <- <-. exists 1, Empty, []. split; [reflexivity|]. split; [intros W w x t; reflexivity|left; reflexivity].
    + destruct (parse n Many ts) as [[x r']|] eqn:E; [|discriminate]. destruct r' as [|[] r']; try discriminate. injection H as <- <-.
      destruct (IH _ _ _ _ E F (before_else_tail b [TOpen] ts U) D) as (m & p' & e & P & S1 & ->).
      exists (S m), p', []. split; [cbn [parse expand]; rewrite P; reflexivity|]. split; [exact S1|left; reflexivity].
    + destruct c as [c|]; [|contradiction Ft].
      pose proof (before_else_tail b [TIf (COther c)] ts U) as U1. destruct (parse n One ts) as [[x r']|] eqn:E; [|discriminate].
      destruct (IH _ _ _ _ E F U1 D) as (m & p' & e & P & S1 & He). destruct (parse_scan _ _ _ _ _ E) as (d & Ed & _).
      destruct (match r' with TElse :: _ => true | _ => false end) eqn:IsElse.
      * destruct r' as [|[] r']; try discriminate. destruct He as [->|[-> (c0 & m0 & u0 & E0 & B0)]].
        -- assert (D2 : semis r') by (cbn [semis] in D; rewrite Ed in D; apply semis_tail in D; exact D). cbn [app expand] in P. destruct (parse n One r') as [[y r2]|] eqn:E2; [|discriminate]. injection H as <- <-.
           assert (F2 : Forall written r') by (rewrite Ed in F; apply Forall_app in F as [_ F]; apply Forall_cons_iff in F; apply F).
           assert (U2 : ~ use_before_else b r') by (rewrite Ed in U1; apply before_else_tail in U1; exact (before_else_tail b [TElse] r' U1)).
           destruct (IH _ _ _ _ E2 F2 U2 D2) as (m2 & p2 & e2 & P2 & S2 & He2). exists (S (m + m2)), (IfElse (COther c) p' p2), e2. split.
           { cbn [parse expand]. rewrite (parse_le m (m + m2) _ _ _ ltac:(lia) P), (parse_le m2 (m + m2) _ _ _ ltac:(lia) P2). reflexivity. }
           split; [apply same_ifelse; assumption|]. destruct He2 as [->|[-> (c2 & m3 & u3 & E3 & B3)]]; [left; reflexivity|right; split; [reflexivity|]].
           exists (TIf (COther c) :: d ++ TElse :: c2), m3, u3. split; [|exact B3]. rewrite Ed, E3. cbn [app]. rewrite <- app_assoc. reflexivity.
        -- exfalso. apply U1. exists c0, m0, u0, r'. split; [exact E0|exact B0].
      * assert (X : p = If (COther c) x /\ r = r') by (destruct r' as [|[] r']; try discriminate; injection H as <- <-; auto). destruct X as [-> ->].
        exists (S m), (If (COther c) p'), e. split; [|split; [apply same_if; exact S1|]].
        { cbn [parse expand]. rewrite P. assert (N : match e ++ expand b r' with TElse :: _ => False | _ => True end).
          { destruct He as [->|[-> _]]; [|exact I]. cbn [app]. destruct r' as [|t r']; [exact I|].
            destruct t as [a| | | |c'|]; try exact I; try discriminate. cbn [expand].
            destruct a as [k|m0 u0|  |  |q k|k|k|  |k]; try exact I. destruct m0, b; try exact I; cbn [expansion app].
            all: cbn [semis] in D; rewrite Ed in D; apply semis_tail in D; destruct D as [D _]; destruct r' as [|[] r']; try contradiction; exact I. }
          destruct (e ++ expand b r') as [|[] z]; try reflexivity. contradiction. }
        destruct He as [->|[-> (c2 & m3 & u3 & E3 & B3)]]; [left; reflexivity|right; split; [reflexivity|]].
        exists (TIf (COther c) :: c2), m3, u3. split; [rewrite E3; reflexivity|exact B3].
  - apply many_cons in H as [(-> & -> & T)|(x & r1 & y & H1 & H2 & ->)].
    + exists 1, Empty, []. split; [|split; [intros W w x t; reflexivity|reflexivity]]. destruct ts as [|[] ts]; try contradiction; reflexivity.
    + destruct (IH _ _ _ _ H1 F U D) as (m1 & p1 & e1 & P1 & S1 & He). destruct (parse_scan _ _ _ _ _ H1) as (d & Ed & _).
      assert (D2 : semis r1) by (rewrite Ed in D; exact (semis_tail _ _ D)).
      assert (F2 : Forall written r1) by (rewrite Ed in F; apply Forall_app in F; apply F).
      assert (U2 : ~ use_before_else b r1) by (rewrite Ed in U; exact (before_else_tail b _ _ U)).
      destruct (IH _ _ _ _ H2 F2 U2 D2) as (m2 & p2 & e2 & P2 & S2 & ->). cbn [app] in P2. destruct He as [->|[-> _]].
      * cbn [app] in P1. exists (S (m1 + m2)), (Seq p1 p2), []. split; [|split; [apply same_seq; assumption|reflexivity]].
        apply (cons_many _ _ _ (expand b r1)); [apply (parse_le m1); [lia|exact P1]|apply (parse_le m2); [lia|exact P2]].
      * cbn [app] in P1. exists (S (S (m1 + m2))), (Seq p1 (Seq Empty p2)), []. split; [|split; [|reflexivity]].
        -- apply (cons_many _ _ _ (TSemi :: expand b r1)); [apply (parse_le m1); [lia|exact P1]|].
           apply (cons_many _ _ _ (expand b r1)); [apply (parse_le 1); [|reflexivity]|apply (parse_le m2); [lia|exact P2]].
           destruct m1; [discriminate|lia].
        -- apply same_seq; [exact S1|]. intros W w v t. cbn [exec]. apply S2.
Qed.

Lemma program_semis ts p : program ts p -> semis ts.
Proof. intros [n H]. exact (parse_semis _ _ _ _ _ H I). Qed.

Lemma statement_lemma : forall b ts p, program ts p -> Forall written ts -> ~ use_before_else b ts ->
  exists p', program (expand b ts) p' /\ forall W (w : world W) x, executed w p' x = intended w b p x.
Proof.
  intros b ts p P F U. pose proof (program_semis _ _ P) as D. destruct P as [n H]. destruct (sim b n _ _ _ _ H F U D) as (m & p' & e & P & S1 & ->).
  exists p'. split; [exists m; exact P|]. intros W w x. apply S1.
Qed.

Lemma well_formed_lemma : forall b ts, well_formed ts -> Forall written ts -> (well_formed (expand b ts) <-> ~ use_before_else b ts).
Proof.
  intros b ts [p P] F. split; [intros H U; exact (else_lemma _ _ U H)|]. intros U. destruct (statement_lemma b ts p P F U) as (p' & P' & _). exists p'. exact P'.
Qed.

Lemma build_lemma : forall f, (build_of f = Queueing <->
  (forall z, have_log_no_info f = Some z -> z = 0%Z) /\
  (enforce_log_info f <> None \/ (internaldebug2 f <> None \/ internaldebug1 f <> None) /\ (debug1 f <> None \/ debug2 f <> None \/ ndebug f = None))).
Proof.
  intros [h e i2 i1 d1 d2 nd]. unfold build_of. cbn.
  assert (T : truth h = false <-> forall z, h = Some z -> z = 0%Z).
  { destruct h as [z|]; cbn; [|split; [discriminate|reflexivity]]. destruct (Z.eqb_spec z 0) as [->|N]; cbn; split; try discriminate; try reflexivity; [intros _ z' [= <-]; reflexivity|].
    intros H. destruct (N (H z eq_refl)). }
  assert (G : forall x : option Z, x <> None <-> defined x = true) by (intros [x|]; cbn; split; congruence).
  rewrite <- T, !G. assert (N : nd = None <-> negb (defined nd) = true) by (destruct nd; cbn; split; congruence). rewrite N.
  destruct (truth h), (defined e), (defined i2), (defined i1), (defined d1), (defined d2), (defined nd), (truth i2), (truth i1); cbn; split; intros; try discriminate; try reflexivity; intuition discriminate.
Qed.
Lemma nothing_lemma : forall f, build_of f <> Queueing -> (build_of f = Nothing <->
  forall z, internaldebug2 f = Some z \/ internaldebug1 f = Some z -> z = 0%Z).
Proof.
  intros [h e i2 i1 d1 d2 nd]. unfold build_of. cbn. destruct (_ && _); [congruence|]. intros _.
  assert (T : forall x, truth x = false <-> forall z, x = Some z -> z = 0%Z).
  { intros [z|]; cbn; [|split; [discriminate|reflexivity]]. destruct (Z.eqb_spec z 0) as [->|N]; cbn; split; try discriminate; try reflexivity; [intros _ z' [= <-]; reflexivity|].
    intros H. destruct (N (H z eq_refl)). }
  destruct (truth i2) eqn:A; [|destruct (truth i1) eqn:B]; cbn; (split; [try discriminate|]).
  - intros H. assert (X : truth i2 = false) by (apply T; intros z E; apply H; auto). congruence.
  - intros H. assert (X : truth i1 = false) by (apply T; intros z E; apply H; auto). congruence.
  - intros _ z [E|E]; [apply (proj1 (T i2) A); exact E|apply (proj1 (T i1) B); exact E].
  - reflexivity.
Qed.
