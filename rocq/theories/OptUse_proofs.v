From Coq Require Import Lia ZifyBool ZifyNat ZifyN Permutation.
From Verif Require Import OptParser_spec OptParser_proofs OptStore_proofs.

(** * One call of parse *)
Definition parse_state (p : parser) (os : list opt) (o b : nat) : Prop :=
  inv (arrays p) os /\ length (options (arrays p)) = o /\ length (buffer (arrays p)) = b.

Lemma empty_slot m os bufmax n : inv m os -> first_empty m bufmax = Some n -> storing bufmax os {| mem := m; op_count := n |}.
Proof.
  intros I. unfold first_empty. rewrite (used_inv m os I). intros H. split; [exact I|]. cbn. destruct bufmax as [b|].
  - destruct (b <=? length os) eqn:E; [injection H as <-; right; exists b; split; [reflexivity|lia]|].
    destruct (length os <? length (buffer m)); [|discriminate]. injection H as <-. now left.
  - destruct (length os <? length (buffer m)); [|discriminate]. injection H as <-. now left.
Qed.

Lemma parse_step gnu usage min sm bufmax argv p os0 o b l os ok :
  parse_state p os0 o b -> supported b -> scan usage min sm gnu argv = (l, os, ok) ->
  match parse gnu usage min sm bufmax argv p with
  | Some (p', argv') => parse_state p' (os0 ++ kept bufmax (length os0) os) o b /\ error p' = negb ok /\
      argv' = others l ++ operands l ++ unread l /\
      nonOptions p' = (if ok then match operands l with [] => nonOptions p | _ => operands l end else nonOptions p)
  | None => b <= length os0 \/ b < length os0 + length os \/ Exists (fun x => ~ good (arrays p) x) os
  end.
Proof.
  intros (I & Lo & Lb) Sp Sc. unfold parse. destruct (first_empty (arrays p) bufmax) as [n|] eqn:Fe.
  2:{ left. unfold first_empty in Fe. rewrite (used_inv _ _ I), Lb in Fe. destruct bufmax as [c|]; [destruct (c <=? length os0); [discriminate Fe|]|];
      destruct (length os0 <? b) eqn:E; try discriminate Fe; lia. }
  pose proof (empty_slot _ _ _ _ I Fe) as St. set (st := {| mem := arrays p; op_count := n |}) in *.
  pose proof (workhorse_scan usage min sm (store_option bufmax) gnu argv st) as W. rewrite Sc in W. unfold resolved in W.
  assert (Lim : (N.of_nat (length (buffer (mem st))) < limit)%N) by (unfold st; cbn; rewrite Lb; exact Sp).
  pose proof (play_result bufmax os os0 st St Lim) as P. destruct (play (store_option bufmax) st os) as [st'|st'|]; [|destruct P|].
  - destruct P as ((I' & _) & So & Sb). cbn in So, Sb. destruct ok; rewrite W; cbn [arrays error nonOptions negb app length Nat.add].
    + split; [split; [exact I'|split; cbn; congruence]|]. split; [reflexivity|].
      assert (Un : unread l = []).
      { clear -Sc. assert (G : forall k a, length a <= k -> forall l os, scan usage min sm gnu a = (l, os, true) -> unread l = []).
        { clear. induction k as [|k IH]; intros a Ha l os.
          - destruct a; [|cbn in Ha; lia]. now intros [= <- _].
          - destruct a as [|t r]; [now intros [= <- _]|]. cbn in Ha. cbn [scan]. destruct (is_option t); cbn [negb].
            + destruct (is_terminator t).
              * intros [= <- _]. unfold unread. rewrite with_role_cons, with_role_all. reflexivity.
              * destruct (element_ev usage min sm t (hd_error r)) as [os1 [|[|]|]]; [| | |discriminate].
                2: destruct r as [|v r]; [now intros [= <- _]|]; cbn in Ha;
                   destruct (scan usage min sm gnu r) as [[l1 os2] k2] eqn:E; intros [= <- _ ->]; unfold unread; rewrite !with_role_cons; exact (IH r ltac:(lia) _ _ E).
                all: destruct (scan usage min sm gnu r) as [[l1 os2] k2] eqn:E; intros [= <- _ ->]; unfold unread; rewrite !with_role_cons; exact (IH r ltac:(lia) _ _ E).
            + destruct gnu.
              * destruct (scan usage min sm true r) as [[l1 os2] k2] eqn:E; intros [= <- _ ->]; unfold unread; rewrite !with_role_cons; exact (IH r ltac:(lia) _ _ E).
              * intros [= <- _]. change ((t, Operand) :: all_of Operand r) with (all_of Operand (t :: r)). unfold unread. now rewrite with_role_all. }
        exact (G _ argv (le_n _) _ _ Sc). }
      split; [now rewrite Un, app_nil_r|]. rewrite skipn_app, skipn_all, Nat.sub_diag. cbn. reflexivity.
    + split; [split; [exact I'|split; cbn; congruence]|]. split; [reflexivity|]. split; reflexivity.
  - rewrite W. right. cbn in P. rewrite Lb in P. exact P.
Qed.

Lemma built_state o b p : supported b -> built o b p -> exists os, parse_state p os o b.
Proof.
  intros Sp H. induction H as [|gnu usage min sm bufmax argv p p' argv' H (os & S) E].
  - exists []. split; [apply inv_init|]. cbn. rewrite !map_length, !seq_length. now split.
  - destruct (scan usage min sm gnu argv) as [[l os'] ok] eqn:Sc. pose proof (parse_step gnu usage min sm bufmax argv p os o b l os' ok S Sp Sc) as X.
    rewrite E in X. destruct X as (X & _). eexists. exact X.
Qed.

(** C112 *)
Lemma reading_lemma o b p gnu usage min sm bufmax argv p' argv' : supported b -> built o b p -> sane usage ->
  parse gnu usage min sm bufmax argv p = Some (p', argv') ->
  exists line os ok, map fst line = argv /\ reading usage min sm gnu line os ok /\
    stored (arrays p') = stored (arrays p) ++ kept bufmax (length (stored (arrays p))) os /\
    error p' = negb ok /\
    nonOptions p' = (if ok then match operands line with [] => nonOptions p | _ => operands line end else nonOptions p) /\
    argv' = others line ++ operands line ++ unread line.
Proof.
  intros Sp Bu Sa E. destruct (built_state o b p Sp Bu) as (os0 & S). destruct (scan usage min sm gnu argv) as [[l os] ok] eqn:Sc.
  pose proof (parse_step gnu usage min sm bufmax argv p os0 o b l os ok S Sp Sc) as X. rewrite E in X. destruct X as ((I' & _) & Er & Ar & No).
  destruct S as (I & _). rewrite (stored_inv _ _ I), (stored_inv _ _ I').
  destruct (scan_reading usage min Sa sm gnu _ argv (le_n _) l os ok Sc) as [R M]. exists l, os, ok. repeat (split; [assumption || reflexivity|]). exact Ar.
Qed.
Lemma perm_roles l : Permutation (map fst l) (others l ++ operands l ++ unread l).
Proof.
  induction l as [|[t r] l IH]; [constructor|]. unfold operands, unread in *. rewrite others_cons, !with_role_cons. cbn [map fst]. rewrite IH.
  destruct r; cbn [role_eqb app]; try reflexivity.
  - now rewrite <- Permutation_middle.
  - rewrite <- Permutation_middle, <- Permutation_middle. reflexivity.
Qed.
Lemma permutation_lemma o b p gnu usage min sm bufmax argv p' argv' : supported b -> built o b p -> sane usage ->
  parse gnu usage min sm bufmax argv p = Some (p', argv') -> Permutation argv argv'.
Proof.
  intros Sp Bu Sa E. destruct (reading_lemma _ _ _ _ _ _ _ _ _ _ _ Sp Bu Sa E) as (l & os & ok & M & _ & _ & _ & _ & ->). rewrite <- M. apply perm_roles.
Qed.
Lemma posix_line usage min sm : forall k a, length a <= k -> forall l os ok, scan usage min sm false a = (l, os, ok) -> others l ++ operands l ++ unread l = a.
Proof.
  induction k as [|k IH]; intros a Ha l os ok.
  - destruct a; [|cbn in Ha; lia]. now intros [= <- _].
  - destruct a as [|t r]; [now intros [= <- _]|]. cbn in Ha. cbn [scan]. destruct (is_option t); cbn [negb].
    + destruct (is_terminator t).
      * intros [= <- _ _]. unfold operands, unread. rewrite others_cons, !with_role_cons, !with_role_all, others_all. cbn. now rewrite app_nil_r.
      * destruct (element_ev usage min sm t (hd_error r)) as [os1 [|[|]|]].
        2: destruct r as [|v r]; [now intros [= <- _]|]; cbn in Ha;
           destruct (scan usage min sm false r) as [[l1 os2] k2] eqn:E; intros [= <- _ ->]; unfold operands, unread; rewrite !others_cons, !with_role_cons; cbn; do 2 f_equal; exact (IH r ltac:(lia) _ _ _ E).
        3: intros [= <- _ _]; change ((t, Unread) :: all_of Unread r) with (all_of Unread (t :: r)); unfold operands, unread; rewrite !with_role_all, others_all; reflexivity.
        all: destruct (scan usage min sm false r) as [[l1 os2] k2] eqn:E; intros [= <- _ ->]; unfold operands, unread; rewrite !others_cons, !with_role_cons; cbn; f_equal; exact (IH r ltac:(lia) _ _ _ E).
    + intros [= <- _ _]. change ((t, Operand) :: all_of Operand r) with (all_of Operand (t :: r)). unfold operands, unread. rewrite !with_role_all, others_all. cbn. now rewrite app_nil_r.
Qed.
Lemma posix_lemma o b p usage min sm bufmax argv p' argv' : supported b -> built o b p ->
  parse false usage min sm bufmax argv p = Some (p', argv') -> argv' = argv.
Proof.
  intros Sp Bu E. destruct (built_state o b p Sp Bu) as (os0 & S). destruct (scan usage min sm false argv) as [[l os] ok] eqn:Sc.
  pose proof (parse_step false usage min sm bufmax argv p os0 o b l os ok S Sp Sc) as X. rewrite E in X. destruct X as (_ & _ & -> & _).
  exact (posix_line usage min sm _ argv (le_n _) _ _ _ Sc).
Qed.

(** C114 *)
Lemma lists_lemma o b p i : supported b -> built o b p -> i < o -> list_at (arrays p) i = with_index i (stored (arrays p)).
Proof.
  intros Sp Bu Li. destruct (built_state o b p Sp Bu) as (os & I & Lo & Lb). rewrite (stored_inv _ _ I). apply list_inv; [exact I|lia].
Qed.
Lemma walk_lemma o b p i k x : supported b -> built o b p -> i < o -> nth_error (chain (arrays p) i) k = Some x ->
  first (arrays p) x = Some (O i) /\ last (arrays p) x = nth_error (chain (arrays p) i) (length (chain (arrays p) i) - 1) /\
  next (arrays p) x = nth_error (chain (arrays p) i) (S k) /\
  prev (arrays p) x = (match k with 0 => None | S j => nth_error (chain (arrays p) i) j end) /\
  count (arrays p) x = Some (length (list_at (arrays p) i)).
Proof.
  intros Sp Bu Li N. destruct (built_state o b p Sp Bu) as (os & I & Lo & Lb). set (m := arrays p) in *. rewrite <- Lo in Li. rewrite (chain_inv m os i I Li) in *.
  assert (Ne : places i os <> []) by (intros E; rewrite E in N; destruct k; discriminate N).
  pose proof (i_linked _ _ I i Li) as L. pose proof (places_size m i os I Li) as Sz.
  assert (K : k < length (places i os)) by (apply nth_error_Some; congruence).
  assert (Hh : hd (O 0) (places i os) = O i) by (unfold places in *; destruct (positions i os); [now elim Ne|reflexivity]).
  assert (F : first m x = Some (O i)) by (unfold first; rewrite (first_nth m _ L Ne k x (size m) N ltac:(lia)); now rewrite Hh).
  assert (H0 : nth_error (places i os) 0 = Some (O i)) by (rewrite <- Hh; exact (hd_nth _ Ne)).
  split; [exact F|]. split; [|split; [|split]].
  - unfold last. rewrite F. destruct (L 0 (O i) H0) as (c & Fc & _ & Pc). rewrite Fc. cbn. rewrite Pc. cbn. symmetry. exact (last_nth _ Ne).
  - exact (next_nth m _ L k x N).
  - exact (prev_nth m _ L k x N).
  - unfold count. rewrite F. destruct (L k x N) as (c & Fc & _). rewrite Fc.
    assert (Ct : exists y, content c = Some y).
    { pose proof (in_places i os x (nth_error_In _ _ N)) as P. destruct P as [->|(j & -> & P)].
      - unfold places in Ne. destruct (positions i os) as [|j js] eqn:Po; [now elim Ne|]. destruct (i_head _ _ I i j js Li Po) as (c' & Fc' & Cc').
        assert (j < length os) by (apply (positions_lt i); rewrite Po; now left). destruct (nth_error os j) as [y|] eqn:Ny; [|apply nth_error_None in Ny; lia].
        exists y. congruence.
      - assert (j < length os) by (exact (positions_lt i os j P)). destruct (nth_error os j) as [y|] eqn:Ny; [|apply nth_error_None in Ny; lia].
        destruct (i_buf _ _ I j y Ny) as (c' & Fc' & Cc'). exists y. congruence. }
    destruct Ct as (y & ->). rewrite (count_nth m _ L 0 (O i) (size m) 1 H0 ltac:(lia)). f_equal. rewrite (list_inv m os i I Li), <- map_positions.
    assert (Q : length (places i os) = length (positions i os)) by (unfold places; destruct (positions i os); cbn; [reflexivity|now rewrite map_length]).
    assert (G : forall ks, (forall j, In j ks -> j < length os) -> length (flat_map (fun k0 => match nth_error os k0 with Some o0 => [o0] | None => [] end) ks) = length ks).
    { induction ks as [|j ks IH]; intros H; [reflexivity|]. cbn. rewrite app_length, IH by (intros a A; apply H; now right).
      destruct (nth_error os j) eqn:E; [reflexivity|]. apply nth_error_None in E. specialize (H j ltac:(now left)). lia. }
    rewrite G by (intros j; apply positions_lt). lia.
Qed.
