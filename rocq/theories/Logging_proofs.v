From Coq Require Import ZArith List Bool Lia ZifyBool.
From Verif Require Import Str Outcome Fuzzy_model Logging_model Logging_spec.
Local Open Scope Z_scope.

Lemma strongest_snoc {T} (l : list (fuzzy T)) x y : strongest_latest l x ->
  strongest_latest (l ++ [y]) (if level_ x <=? level_ y then y else x).
Proof.
  intros (a & b & -> & Ha & Hb). destruct (level_ x <=? level_ y) eqn:E.
  - exists (a ++ x :: b), []. split; [reflexivity|]. split; [|constructor].
    apply Forall_app. split; [|constructor; [lia|]].
    + eapply Forall_impl; [|exact Ha]. cbn. intros. lia.
    + eapply Forall_impl; [|exact Hb]. cbn. intros. lia.
  - exists a, (b ++ [y]). split; [rewrite <- app_assoc; reflexivity|]. split; [exact Ha|].
    apply Forall_app. split; [exact Hb|]. constructor; [lia|constructor].
Qed.

Lemma strongest_unique {T} (l : list (fuzzy T)) x y : strongest_latest l x -> strongest_latest l y -> x = y.
Proof.
  intros (a & b & -> & Ha & Hb) (a' & b' & E & Ha' & Hb').
  assert (Hx : In x (a' ++ y :: b')) by (rewrite <- E; apply in_or_app; right; left; reflexivity).
  assert (Hy : In y (a ++ x :: b)) by (rewrite E; apply in_or_app; right; left; reflexivity).
  rewrite Forall_forall in Ha, Hb, Ha', Hb'.
  revert a' E Ha' Hx Hy. induction a as [|u a IH]; intros [|v a'] E Ha' Hx Hy; cbn in E.
  - injection E as -> _. reflexivity.
  - injection E as <- E.
    specialize (Ha' x (or_introl eq_refl)).
    assert (In y b) as Hy' by (rewrite E; apply in_or_app; right; left; reflexivity).
    specialize (Hb y Hy'). lia.
  - injection E as -> E. specialize (Ha y (or_introl eq_refl)).
    assert (In x b') as Hx' by (rewrite <- E; apply in_or_app; right; left; reflexivity).
    specialize (Hb' x Hx'). lia.
  - injection E as <- E. apply (IH (fun z Hz => Ha z (or_intror Hz)) a' E).
    + intros z Hz. apply Ha'. right. exact Hz.
    + rewrite <- E. apply in_or_app. right. left. reflexivity.
    + rewrite E. apply in_or_app. right. left. reflexivity.
Qed.

Lemma configure_snoc l x : configure (l ++ [x]) = apply_setting (configure l) x.
Proof. unfold configure. rewrite fold_left_app. reflexivity. Qed.

Lemma set_filter_loop_verbosity f : forall ks c, verbosity (fst (set_filter_loop c f ks)) = verbosity c.
Proof.
  induction ks as [|k ks IH]; intros c; [reflexivity|]. cbn [set_filter_loop]. unfold set_filter_kind.
  destruct (f k) as [x|]; [|reflexivity]. destruct (_ <=? _); rewrite IH; reflexivity.
Qed.

Lemma verbosity_lemma : forall l, strongest_latest ({| value_ := Warning; level_ := 0 |} :: verbosities l) (verbosity (configure l)).
Proof.
  induction l as [|x l IH] using rev_ind.
  - exists [], []. split; [reflexivity|]. split; constructor.
  - rewrite configure_snoc. unfold verbosities in *. rewrite flat_map_app. destruct x as [v|f]; cbn [flat_map apply_setting app].
    + unfold set_verbosity. pose proof (strongest_snoc _ _ v IH) as H. cbn [app] in H.
      destruct (level_ (verbosity (configure l)) <=? level_ v) eqn:E; exact H.
    + unfold set_filter. rewrite set_filter_loop_verbosity, app_nil_r. exact IH.
Qed.

Lemma eqb_kind_refl k : eqb_kind k k = true.
Proof. destruct k; reflexivity. Qed.

Lemma set_filter_effect c f k : filter (fst (set_filter c f)) k =
  match given f k with
  | [x] => if level_ (filter c k) <=? level_ x then x else filter c k
  | _ => filter c k
  end.
Proof.
  unfold set_filter, set_filter_loop, set_filter_kind, given.
  destruct k, (f Error) as [e|]; try reflexivity; destruct (level_ (filter c Error) <=? level_ e) eqn:Ee; cbn [filter fst];
    destruct (f Warning) as [w|]; cbn [filter fst eqb_kind kind_value Z.eqb]; rewrite ?Ee; try reflexivity;
    destruct (level_ (filter c Warning) <=? level_ w) eqn:Ew; cbn [filter fst eqb_kind kind_value Z.eqb Pos.eqb];
    destruct (f Info) as [i|]; cbn [filter fst eqb_kind kind_value Z.eqb Pos.eqb]; rewrite ?Ee, ?Ew; try reflexivity;
    destruct (level_ (filter c Info) <=? level_ i) eqn:Ei; cbn [filter fst eqb_kind kind_value Z.eqb Pos.eqb]; try reflexivity.
Qed.

Lemma given_cases f k : given f k = [] \/ exists x, given f k = [x].
Proof. unfold given. destruct k, (f Error), (f Warning), (f Info); eauto. Qed.

Lemma filter_lemma : forall k l, strongest_latest ({| value_ := []; level_ := 0 |} :: filters k l) (filter (configure l) k).
Proof.
  intros k. induction l as [|x l IH] using rev_ind.
  - exists [], []. split; [reflexivity|]. split; constructor.
  - rewrite configure_snoc. unfold filters in *. rewrite flat_map_app. destruct x as [v|f]; cbn [flat_map apply_setting app].
    + unfold set_verbosity. rewrite app_nil_r. destruct (_ <=? _); exact IH.
    + rewrite set_filter_effect, app_nil_r. destruct (given_cases f k) as [->|[y ->]].
      * rewrite app_nil_r. exact IH.
      * apply (strongest_snoc _ _ y IH).
Qed.

Lemma partial_update_lemma : exists f c', set_filter log_config_init f = (c', Throw OutOfRange) /\
  filter c' Error <> filter log_config_init Error.
Proof.
  exists (fun k => match k with Error => Some {| value_ := s "x"; level_ := 40 |} | _ => None end).
  eexists. split; [reflexivity|]. cbn. discriminate.
Qed.

(** ** Consumers *)

Lemma kind_le_iff a b : (kind_value a <=? kind_value b) = true <-> as_severe_as a b.
Proof. destruct a, b; cbn; intuition discriminate. Qed.

Lemma accept_lemma : forall rs c e in_category in_message,
  rs (value_ (filter c (entry_kind e))) (category e) = Some in_category ->
  rs (value_ (filter c (entry_kind e))) (message e) = Some in_message ->
  exists b, accept_entry rs c e = Ret b /\
    (b = true <-> as_severe_as (entry_kind e) (value_ (verbosity c)) /\ (in_category = true \/ in_message = true)).
Proof.
  intros rs c e ic im H1 H2. unfold accept_entry. rewrite H1, H2. eexists. split; [reflexivity|].
  rewrite andb_true_iff, orb_true_iff, kind_le_iff. reflexivity.
Qed.

Lemma invalid_filter_lemma : forall rs c e,
  (forall t, rs (value_ (filter c (entry_kind e))) t = None) -> accept_entry rs c e = Throw InvalidArgument.
Proof. intros rs c e H. unfold accept_entry. rewrite H. reflexivity. Qed.

Lemma stream_lemma : forall e, get_stream e = StdErr <-> as_severe_as (entry_kind e) Warning.
Proof. intros [k ? ?]. destruct k; cbn; intuition discriminate. Qed.

(** ** Severe handlers *)

Lemma log_run_handler threshold i : forall ops l n,
  (forall t, In (NewHandler t) ops -> t = Error \/ as_severe_as threshold t) ->
  kind_value threshold <= kind_value (log_verbosity l) ->
  nth_error (handlers l) i = Some (threshold, n) ->
  nth_error (handlers (fold_left log_step ops l)) i = Some (threshold, (n + length (List.filter (counts threshold) ops))%nat).
Proof.
  induction ops as [|o ops IH]; intros l n Ht Hv Hn; cbn [fold_left List.filter length].
  - rewrite Nat.add_0_r. exact Hn.
  - assert (Ec : counts threshold o = match o with Write k => kind_value k <=? kind_value threshold | NewHandler _ => false end)
      by (destruct o as [t|[]], threshold; reflexivity).
    rewrite Ec. clear Ec. destruct o as [t|k]; cbn [log_step].
    + apply IH; [intros t' H'; apply Ht; right; exact H'| |].
      * unfold new_severe_handler. cbn [log_verbosity]. destruct (Ht t (or_introl eq_refl)) as [->|Hs]; [exact Hv|].
        apply kind_le_iff in Hs. destruct (_ <? _); lia.
      * cbn [new_severe_handler handlers]. rewrite nth_error_app1; [exact Hn|]. apply nth_error_Some. congruence.
    + unfold log_entry. destruct (kind_value k <=? kind_value threshold) eqn:E.
      * replace (kind_value k <=? kind_value (log_verbosity l)) with true by lia.
        rewrite (IH _ (S n)); [cbn [length]; do 2 f_equal; lia|intros t' H'; apply Ht; right; exact H'|exact Hv|].
        cbn [handlers]. rewrite nth_error_map, Hn. cbn. unfold severe_consume. cbn [fst snd]. rewrite E. reflexivity.
      * apply IH; [intros t' H'; apply Ht; right; exact H'|destruct (kind_value k <=? kind_value (log_verbosity l)); exact Hv|].
        destruct (kind_value k <=? kind_value (log_verbosity l)); [|exact Hn]. cbn [handlers]. rewrite nth_error_map, Hn. cbn. unfold severe_consume.
        cbn [fst snd]. rewrite E. reflexivity.
Qed.

Lemma severe_lemma : forall before threshold ops,
  (forall t, In (NewHandler t) ops -> t = Error \/ as_severe_as threshold t) ->
  nth_error (handlers (log_run (before ++ NewHandler threshold :: ops))) (length (handlers (log_run before))) =
  Some (threshold, length (List.filter (counts threshold) ops)).
Proof.
  intros before threshold ops Ht. unfold log_run. rewrite fold_left_app. cbn [fold_left log_step].
  set (l := fold_left log_step before logger_init).
  apply (log_run_handler threshold (length (handlers l)) ops (new_severe_handler l threshold) 0%nat Ht).
  - unfold new_severe_handler. cbn [log_verbosity]. destruct (_ <? _) eqn:E; [lia|]. destruct threshold, (log_verbosity l); cbn in *; lia.
  - cbn [new_severe_handler handlers]. rewrite nth_error_app2, Nat.sub_diag by lia. reflexivity.
Qed.

Lemma two_handlers_lemma : exists ops n1 n2,
  ops = [NewHandler Info; NewHandler Warning; Write Info] /\
  handlers (log_run ops) = [(Info, n1); (Warning, n2)] /\ n1 = 0%nat.
Proof. eexists _, _, _. split; [reflexivity|]. split; reflexivity. Qed.

(** ** LogChecker *)

Lemma check_lemma : forall expected max count,
  check_valid expected max count count = true <-> expected <= count <= Z.max max expected.
Proof. intros. unfold check_valid, max_severe_logs. rewrite andb_true_iff. lia. Qed.

Lemma check_two_reads : forall expected max count1 count2, count1 <= count2 ->
  check_valid expected max count1 count2 = true -> expected <= count2 <= Z.max max expected.
Proof. intros expected max c1 c2 H. unfold check_valid, max_severe_logs. rewrite andb_true_iff. lia. Qed.
