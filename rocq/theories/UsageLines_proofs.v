(** Proofs for C124 and C146: the lines of the usage text are in UTF-8. *)
From Verif Require Import Usage_model Usage_spec UsageIter_proofs UsageWrap_proofs UsageWidth_proofs UsagePrint_proofs UsageFit_proofs UsageUtf_proofs.
From Coq Require Import Lia ZifyBool ZifyNat ZifyN.
Local Open Scope Z_scope.

Definition u_row_text (r : row) : Prop := forall cell l, In cell r -> In l cell -> is_utf8 l.
Lemma rows_of_utf8 h r : is_utf8 h -> In r (rows_of h) -> u_row_text r.
Proof.
  intros U I cell l Ic Il. unfold rows_of in I. apply in_map_iff in I as (t & <- & It). unfold row_of in Ic. apply in_map_iff in Ic as (p & <- & Ip).
  assert (A : is_utf8 t) by (exact (proj1 (Forall_forall _ _) (u_split NL h eq_refl U) t It)). assert (B : is_utf8 p) by (exact (proj1 (Forall_forall _ _) (u_split TAB t eq_refl A) p Ip)).
  exact (proj1 (Forall_forall _ _) (u_split VT p eq_refl B) l Il).
Qed.
Lemma tables_utf8 u : (forall e h, In e u -> help e = Some h -> is_utf8 h) -> forall t r, In t (tables u) -> In r t -> u_row_text r.
Proof.
  induction u as [|e u IH]; intros U t r It Ir; [destruct It|]. assert (U' : forall e0 h, In e0 u -> help e0 = Some h -> is_utf8 h) by (intros e0 h I; apply U; right; exact I). specialize (IH U').
  cbn [tables] in It. destruct (help e) as [h|] eqn:He; [|exact (IH t r It Ir)]. assert (Uh : is_utf8 h) by (exact (U e h (or_introl eq_refl) He)).
  destruct u as [|e2 u]; [destruct It as [<-|[]]; exact (rows_of_utf8 h r Uh Ir)|]. destruct (help e2).
  - destruct (tables (e2 :: u)) as [|t1 ts] eqn:E; [destruct It as [<-|[]]; exact (rows_of_utf8 h r Uh Ir)|]. destruct It as [<-|It]; [apply in_app_or in Ir; destruct Ir as [Ir|Ir]; [exact (rows_of_utf8 h r Uh Ir)|exact (IH t1 r (or_introl eq_refl) Ir)]|exact (IH t r (or_intror It) Ir)].
  - destruct It as [<-|It]; [exact (rows_of_utf8 h r Uh Ir)|exact (IH t r It Ir)].
Qed.
Lemma F2_in {A B} (R : A -> B -> Prop) la lb a : Forall2 R la lb -> In a la -> exists b, In b lb /\ R a b.
Proof. induction 1 as [|x y la lb H F IH]; [intros []|]. intros [->|I]; [exists y; split; [left; reflexivity|exact H]|]. destruct (IH I) as (b & Ib & Hb). exists b. split; [right; exact Ib|exact Hb]. Qed.

Lemma usage_utf8 u more width mp op : proper u -> -214748 <= mp <= 214748 -> -214748 <= op <= 214748 -> (forall e h, In e u -> help e = Some h -> is_utf8 h) ->
  forall out, print_usage (u ++ the_end :: more) width mp op = Ret out -> is_utf8 out /\ Forall is_utf8 (split_on NL out).
Proof.
  intros P A B U out H. destruct (usage_all u more width mp op P A B) as (a & E). rewrite E in H. clear E. cut (is_utf8 out); [intro K; split; [exact K|exact (u_split NL out eq_refl K)]|].
  apply (u_all _ _ _ _ out) in H; [exact H|]. intros pss ps p I1 I2 I3. pose proof (tparts_tables (length u) u (le_n _)) as F. destruct (F2_in _ _ _ pss F I1) as (t & It & Ft). destruct (F2_in _ _ _ ps Ft I2) as (r & Ir & (_ & e & _ & Eq)).
  subst ps. destruct (parts_in e r p I3) as (j & c & Hj & Hc & ->). cbn [pdata part_at]. destruct (nth_in_or_default j (nth c r []) []) as [In1|D]; [|rewrite D; exact u_nil].
  exact (tables_utf8 u U t r It Ir _ _ (nth_In r [] Hc) In1).
Qed.

Lemma usage_characters u more width mp op : proper u -> -214748 <= mp <= 214748 -> (forall e h, In e u -> help e = Some h -> is_utf8 h) ->
  (forall t, In t (tables u) -> column_start t (last_column t) + 2 <= used width) -> 0 <= op <= 100 -> 2 <= (used width * op + 50) / 100 ->
  exists out, print_usage (u ++ the_end :: more) width mp op = Ret out /\
    Forall (fun l => exists cs, Forall code_point cs /\ l = flat_map utf8 cs /\ fold_right Z.add 0 (map screen_width cs) <= used width) (split_on NL out).
Proof.
  intros P A U H B B2. destruct (usage_within u more width mp op P A H B B2) as (out & E & F). exists out. split; [exact E|]. destruct (usage_utf8 u more width mp op P A ltac:(lia) U out E) as [_ G].
  rewrite Forall_forall in *. intros l I. specialize (F l I). destruct (G l I) as (cs & Fc & ->). exists cs. split; [exact Fc|]. split; [reflexivity|]. rewrite <- (cols_utf8 cs Fc). exact F.
Qed.
