From Coq Require Import ZArith List Lia Bool ZifyBool ZifyNat.
From Verif Require Import Str Outcome History_model History_spec.
Local Open Scope Z_scope.

Lemma u64_small z : 0 <= z < 2 ^ 64 -> u64 z = z.
Proof. intros. unfold u64. apply Z.mod_small. lia. Qed.

(** concrete history for a browser *)
Definition repr (b : browser) (h : history) : Prop :=
  command_history_ h = rev (older b) ++ newer b /\
  current_index_ h = Z.of_nat (length (older b)).

Definition size_ok (h : history) (n : nat) : Prop :=
  Z.of_nat (length (command_history_ h)) + Z.of_nat n < 2 ^ 63.

Lemma hsize_repr b h : repr b h -> hsize h = Z.of_nat (length (older b) + length (newer b)).
Proof. intros [H _]. unfold hsize. rewrite H, app_length, rev_length. reflexivity. Qed.

Lemma hist_at_repr h c pre post i :
  command_history_ h = pre ++ c :: post -> i = Z.of_nat (length pre) ->
  hist_at (with_index h i) = Ret (c, with_index h i).
Proof.
  intros H ->. unfold hist_at, hsize, with_index. cbn. rewrite H, app_length. cbn [length].
  replace (_ <=? _) with false by lia. rewrite Nat2Z.id, nth_error_app2 by lia.
  rewrite Nat.sub_diag. reflexivity.
Qed.

(** one step, once the history is not empty *)
Lemma step_repr b h o n : repr b h -> (o <> HNext \/ command_history_ h <> []) -> size_ok h (S n) ->
  exists h', hist_step h o = Ret (fst (browser_step b o), h') /\ repr (snd (browser_step b o)) h' /\ size_ok h' n.
Proof.
  intros Hr Hne Hs. pose proof (hsize_repr b h Hr) as Hz. destruct Hr as [Hl Hi]. unfold size_ok in *.
  assert (Hlen : length (command_history_ h) = (length (older b) + length (newer b))%nat)
    by (rewrite Hl, app_length, rev_length; reflexivity).
  destruct o as [[|c0 c]| |]; cbn [hist_step browser_step].
  - exists h. cbn. split; [reflexivity|]. split; [split; assumption|lia].
  - eexists. split; [reflexivity|]. split; [split|]; cbn [add_command command_history_ current_index_ with_index older newer rev snd fst length].
    + rewrite Hl, rev_app_distr, rev_involutive, app_nil_r. rewrite <- app_assoc. reflexivity.
    + rewrite Hl, !app_length, !rev_length. cbn. lia.
    + rewrite app_length. cbn [length]. lia.
  - unfold get_previous_command. rewrite Hz, Hi.
    destruct (older b) as [|c o'] eqn:Eo.
    + exists h. cbn [length]. replace (negb (Z.of_nat (0 + length (newer b)) =? 0) && (0 <? Z.of_nat 0)) with false
        by (cbn; rewrite andb_false_r; reflexivity). cbn. split; [reflexivity|].
      split; [split|]; [rewrite Eo; exact Hl|rewrite Eo; exact Hi|lia].
    + cbn [length] in *. replace (_ && _) with true by lia.
      rewrite u64_small by lia.
      rewrite (hist_at_repr h c (rev o') (newer b)).
      * eexists. split; [reflexivity|]. split; [split|]; cbn [add_command command_history_ current_index_ with_index older newer rev snd fst length].
        -- rewrite Hl. cbn. rewrite <- app_assoc. reflexivity.
        -- lia.
        -- lia.
      * rewrite Hl. cbn. rewrite <- app_assoc. reflexivity.
      * rewrite rev_length. lia.
  - destruct Hne as [Hne|Hne]; [contradiction|].
    assert (Hpos : (0 < length (command_history_ h))%nat)
      by (destruct (command_history_ h); [contradiction|cbn; lia]).
    unfold get_next_command. rewrite Hz, Hi. rewrite u64_small by lia.
    destruct (newer b) as [|c [|d n']] eqn:En; cbn [length] in *.
    + replace (_ <? _) with false by lia. replace (_ =? _) with false by lia.
      exists h. split; [reflexivity|]. split; [split|]; cbn; rewrite ?En; [exact Hl|exact Hi|lia].
    + replace (_ <? _) with false by lia. replace (_ =? _) with true by lia.
      eexists. split; [reflexivity|]. split; [split|]; cbn [add_command command_history_ current_index_ with_index older newer rev snd fst length].
      * rewrite Hl. cbn. rewrite <- app_assoc. reflexivity.
      * rewrite u64_small by lia. lia.
      * lia.
    + replace (_ <? _) with true by lia. rewrite u64_small by lia.
      rewrite (hist_at_repr h d (rev (older b) ++ [c]) n').
      * eexists. split; [reflexivity|]. split; [split|]; cbn [add_command command_history_ current_index_ with_index older newer rev snd fst length].
        -- rewrite Hl. rewrite <- app_assoc. reflexivity.
        -- lia.
        -- lia.
      * rewrite Hl. rewrite <- app_assoc. reflexivity.
      * rewrite app_length, rev_length. cbn [length]. lia.
Qed.

Lemma run_repr : forall ops b h, repr b h -> command_history_ h <> [] -> size_ok h (length ops) ->
  hist_run h ops = Ret (browser_run b ops).
Proof.
  induction ops as [|o ops IH]; intros b h Hr Hne Hs; [reflexivity|].
  cbn [hist_run browser_run length] in *.
  destruct (step_repr b h o (length ops) Hr (or_intror Hne) Hs) as (h' & E & Hr' & Hs').
  rewrite E. cbn [obind fst snd]. rewrite (IH _ _ Hr'); [reflexivity| |exact Hs'].
  destruct Hr' as [Hl' _], Hr as [Hl _]. intros C. rewrite C in Hl'. symmetry in Hl'. apply app_eq_nil in Hl' as [H1 H2].
  apply Hne. rewrite Hl. apply (f_equal (@rev str)) in H1. rewrite rev_involutive in H1. cbn in H1.
  clear - H1 H2. destruct b as [ol ne]; cbn in *. destruct o as [[|]| |]; cbn in *.
  - subst; reflexivity.
  - discriminate.
  - destruct ol; cbn in *; [subst; reflexivity|discriminate].
  - destruct ne; cbn in *; [subst; reflexivity|discriminate].
Qed.

(** the empty history: the index is -1, or 0 after one [next] *)
Definition empty_hist (k : nat) (h : history) : Prop :=
  command_history_ h = [] /\ current_index_ h = (if (k =? 0)%nat then 2 ^ 64 - 1 else 0).

Lemma run_empty : forall ops h k, empty_hist k h -> (k <= 1)%nat -> Z.of_nat (length ops) < 2 ^ 63 ->
  hist_run h ops = if (2 <=? k + early_nexts ops)%nat then UB else Ret (browser_run browser_init ops).
Proof.
  induction ops as [|o ops IH]; intros h k [Hl Hi] Hk Hlen.
  - cbn [hist_run early_nexts browser_run]. replace (2 <=? k + 0)%nat with false by lia. reflexivity.
  - cbn [length] in Hlen. destruct o as [[|c0 c]| |].
    + cbn [hist_run hist_step add_command obind fst snd early_nexts browser_run browser_step].
      rewrite (IH h k) by (try split; assumption || lia).
      destruct (2 <=? _)%nat; reflexivity.
    + cbn [early_nexts]. replace (2 <=? k + 0)%nat with false by lia.
      cbn [hist_run hist_step obind fst snd browser_run browser_step].
      rewrite (run_repr ops {| older := [c0 :: c]; newer := [] |}).
      * reflexivity.
      * split; cbn; rewrite Hl; reflexivity.
      * cbn. rewrite Hl. discriminate.
      * unfold size_ok. cbn. rewrite Hl. cbn [length app]. lia.
    + cbn [hist_run hist_step early_nexts browser_run browser_step browser_init older].
      unfold get_previous_command, hsize. rewrite Hl. cbn [length Z.of_nat Z.eqb negb andb obind fst snd].
      fold browser_init. rewrite (IH h k) by (try split; assumption || lia).
      destruct (2 <=? _)%nat; reflexivity.
    + cbn [hist_run hist_step early_nexts browser_run browser_step browser_init newer].
      unfold get_next_command, hsize. rewrite Hl. cbn [length Z.of_nat]. change (u64 (0 - 1)) with (2 ^ 64 - 1).
      destruct k as [|[|k]]; [| |lia]; cbn [Nat.eqb] in Hi; rewrite Hi.
      * change (2 ^ 64 - 1 <? 2 ^ 64 - 1) with false. change (2 ^ 64 - 1 =? 2 ^ 64 - 1) with true. cbv iota.
        cbn [obind fst snd]. rewrite (IH _ 1%nat).
        -- cbn [Nat.add]. fold browser_init. destruct (2 <=? _)%nat; reflexivity.
        -- split; [exact Hl|reflexivity].
        -- lia.
        -- lia.
      * change (0 <? 2 ^ 64 - 1) with true. cbv iota. change (u64 (0 + 1)) with 1.
        unfold hist_at, hsize, with_index. cbn [command_history_ current_index_]. rewrite Hl.
        cbn [length Z.of_nat Z.leb Z.compare obind]. replace (2 <=? 1 + S _)%nat with true by lia. reflexivity.
Qed.

Lemma history_lemma : forall ops, Z.of_nat (length ops) < 2 ^ 63 ->
  hist_run history_init ops = if (2 <=? early_nexts ops)%nat then UB else Ret (browser_run browser_init ops).
Proof. intros ops H. apply (run_empty ops history_init 0); [split; reflexivity|lia|exact H]. Qed.

Lemma history_safe_iff : forall ops, Z.of_nat (length ops) < 2 ^ 63 ->
  (hist_run history_init ops = UB <-> (2 <= early_nexts ops)%nat).
Proof.
  intros ops H. rewrite history_lemma by exact H. destruct (2 <=? early_nexts ops)%nat eqn:E.
  - split; [lia|reflexivity].
  - split; [discriminate|lia].
Qed.

Lemma history_list_lemma : forall ops, Z.of_nat (length ops) < 2 ^ 63 -> (early_nexts ops < 2)%nat ->
  hist_run history_init ops = Ret (browser_run browser_init ops).
Proof.
  intros ops H He. rewrite history_lemma by exact H. replace (2 <=? early_nexts ops)%nat with false by lia. reflexivity.
Qed.

(** the order of the commands never changes; adding appends *)
Lemma browser_contents : forall b o,
  let contents b := rev (older b) ++ newer b in
  contents (snd (browser_step b o)) =
  match o with HAdd (c0 :: c) => contents b ++ [c0 :: c] | _ => contents b end.
Proof.
  intros [ol ne] o. cbn. destruct o as [[|c0 c]| |]; cbn.
  - reflexivity.
  - rewrite rev_app_distr, rev_involutive, app_nil_r. reflexivity.
  - destruct ol as [|c ol]; cbn; [reflexivity|]. rewrite <- app_assoc. reflexivity.
  - destruct ne as [|c ne]; cbn; [reflexivity|]. rewrite <- app_assoc. reflexivity.
Qed.

Lemma history_unsafe_lemma : exists ops, hist_run history_init ops = UB.
Proof. exists [HNext; HNext]. reflexivity. Qed.
