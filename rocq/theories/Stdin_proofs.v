(** Proofs about handlers of the standard input. *)
From Coq Require Import ZifyBool ZifyNat ZifyN.
From Verif Require Import Stdin_model Stdin_spec.
Local Arguments N.add : simpl never.
Local Arguments N.sub : simpl never.
Local Arguments N.ltb : simpl never.
Local Arguments N.modulo : simpl never.

Ltac sf := cbn [value enabled source ignoring term reader em_locked im_locked is_set clients history set_counter set_ignoring set_term set_reader set_em set_im set_set set_client say one_more] in *.

(** ** All cases of a step *)
Ltac splits E :=
  repeat (match type of E with
  | (if ?c then _ else _) = _ => destruct c eqn:?
  | match reader ?s with _ => _ end = _ => destruct (reader s) eqn:?
  end; try discriminate E); try discriminate E.

Ltac crack E :=
  let t := fresh "t" in let c := fresh "c" in let b := fresh "b" in let k := fresh "k" in let x := fresh "x" in
  match type of E with sstep ?s ?l = Some _ => destruct l as [x| |k|b|t c|t]; cbn [sstep] in E end;
  [ splits E
  | match type of E with reader_step ?s = Some _ => unfold reader_step in E; destruct (reader s) as [| | | | ?x | ?x | [] ?x | | ?x | | |] eqn:? end; splits E
  | splits E; destruct k
  | idtac
  | match type of E with match ?x with _ => _ end = _ => let p := fresh "p" in destruct x as [p|] eqn:?; [|discriminate E]; destruct p; try discriminate E; destruct c end
  | match type of E with match ?x with _ => _ end = _ => let p := fresh "p" in destruct x as [p|] eqn:?; [|discriminate E];
      match type of E with cstep ?s ?t ?q = Some _ => destruct p; cbn [cstep] in E end; splits E end ];
  injection E as <-; unfold one_more in *; sf.

Ltac tm := repeat match goal with H : reader ?s = _ |- _ => rewrite H in * end.

(** ** Locks *)
Definition b2n (b : bool) : nat := if b then 1 else 0.
Definition crit (p : cpc) : bool := match p with CIdle | SLock | ULock | ELock _ | EIn | PMore => false | _ => true end.
Definition simulating (p : cpc) : bool := match p with EIn => true | _ => false end.
Definition self (p : tpc) : bool := match p with TSelf | TDead => true | _ => false end.
Definition in_cb (p : tpc) : bool := match p with TIn _ | TNest _ _ | TSelf | TDead => true | _ => false end.

Definition locks (s : sstate) : Prop :=
  number_of (fun p => b2n (crit p)) (clients s) + b2n (self (reader s)) = b2n (em_locked s) /\
  number_of (fun p => b2n (simulating p)) (clients s) + b2n (in_cb (reader s)) = b2n (im_locked s).

Ltac numbers :=
  match goal with
  | H : nth_error (clients ?s) ?t = Some _ |- context [upd (clients ?s) ?t ?q] =>
      let G1 := fresh "G1" in let G2 := fresh "G2" in
      pose proof (number_upd (fun p => b2n (crit p)) _ _ q _ H) as G1; pose proof (number_upd (fun p => b2n (simulating p)) _ _ q _ H) as G2;
      cbn [crit simulating b2n enter] in G1, G2
  | _ => idtac
  end.

(** ** What a thread has done *)
Definition alive (p : tpc) : bool := match p with TRaw | TWait | TRead | TLine _ | TIn _ | TNest _ _ | TAdd _ => true | _ => false end.
Definition finishing (p : tpc) : bool := match p with TRaw | TWait | TRead | TLine _ | TAdd _ | TRestore | TEnded => true | _ => false end.
Definition rest (s : sstate) : Prop := enabled s = is_set s /\ ((is_set s = true /\ alive (reader s) = true) \/ (is_set s = false /\ reader s = TNone)).
Definition phase (p : cpc) (s : sstate) : Prop :=
  match p with
  | SSet | UClear => rest s
  | SEnable => is_set s = true /\ enabled s = false /\ reader s = TNone
  | SStart => is_set s = true /\ enabled s = true /\ reader s = TNone
  | SUnlock => rest s /\ is_set s = true
  | UDisable => is_set s = false /\ enabled s = true /\ alive (reader s) = true
  | UJoin => is_set s = false /\ enabled s = false /\ finishing (reader s) = true
  | UUnlock => rest s /\ is_set s = false
  | _ => True
  end.
Definition phases (s : sstate) : Prop :=
  (em_locked s = false -> rest s) /\
  (forall t p, nth_error (clients s) t = Some p -> phase p s) /\
  (im_locked s = true -> self (reader s) = false -> is_set s = true) /\
  (self (reader s) = true -> is_set s = false /\ enabled s = false).

(** SStart creates the thread when there is none *)
Lemma step_count s l s' : locks s -> phases s -> sstep s l = Some s' -> locks s'.
Proof.
  intros L P E. crack E; try match goal with H : nth_error (clients _) _ = Some SStart |- _ => let F := fresh in pose proof (proj1 (proj2 P) _ _ H) as F; cbn [phase] in F; destruct F as (_ & _ & F) end; clear P;
    destruct L as (I1 & I2); unfold locks; sf; tm; numbers; cbn [self in_cb b2n enter] in *;
    repeat match goal with H : em_locked _ = _ |- _ => rewrite H in * | H : im_locked _ = _ |- _ => rewrite H in * end; cbn [b2n] in *;
    repeat match goal with |- context [em_locked ?x] => destruct (em_locked x); cbn [b2n] in * | |- context [im_locked ?x] => destruct (im_locked x); cbn [b2n] in * end; try (split; congruence); try lia.
  all: repeat match goal with H : context [im_locked ?x] |- _ => destruct (im_locked x); cbn [b2n] in * | H : context [em_locked ?x] |- _ => destruct (em_locked x); cbn [b2n] in * end; lia.
Qed.

Lemma crit_alone s t u p q : locks s -> nth_error (clients s) t = Some p -> nth_error (clients s) u = Some q -> crit p = true -> crit q = true -> t = u.
Proof.
  intros (I & _) Hp Hq Cp Cq. destruct (Nat.eq_dec t u) as [E|D]; [exact E|]. pose proof (number_two (fun p => b2n (crit p)) _ _ _ _ _ D Hp Hq) as G. cbn beta in G. rewrite Cp, Cq in G.
  destruct (em_locked s); cbn [b2n] in *; lia.
Qed.
Lemma crit_locked s t p : locks s -> nth_error (clients s) t = Some p -> crit p = true -> em_locked s = true /\ self (reader s) = false.
Proof.
  intros (I & _) Hp Cp. pose proof (number_ge (fun p => b2n (crit p)) _ _ _ Hp) as G. cbn beta in G. rewrite Cp in G.
  destruct (em_locked s), (self (reader s)); cbn [b2n] in *; auto; lia.
Qed.
Lemma free_crit s t p : locks s -> em_locked s = false -> nth_error (clients s) t = Some p -> crit p = false.
Proof. intros L F H. destruct (crit p) eqn:C; [|reflexivity]. destruct (crit_locked _ _ _ L H C). congruence. Qed.
Lemma self_crit s t p : locks s -> self (reader s) = true -> nth_error (clients s) t = Some p -> crit p = false.
Proof. intros L F H. destruct (crit p) eqn:C; [|reflexivity]. destruct (crit_locked _ _ _ L H C). congruence. Qed.
Lemma phase_out p s : crit p = false -> phase p s. Proof. destruct p; try discriminate; intros _; exact I. Qed.

Lemma phases_upd s s' t p q : locks s -> nth_error (clients s) t = Some p -> crit p = true -> clients s' = upd (clients s) t q ->
  (em_locked s' = false -> rest s') -> phase q s' -> (im_locked s' = true -> self (reader s') = false -> is_set s' = true) -> (self (reader s') = true -> is_set s' = false /\ enabled s' = false) -> phases s'.
Proof.
  intros L Hp Cp Ec R P M D0. split; [exact R|]. split; [|split; [exact M|exact D0]]. intros u r Hu. rewrite Ec in Hu. apply nth_upd in Hu as [[-> ->]|[D Hu]]; [exact P|].
  apply phase_out. destruct (crit r) eqn:C; [|reflexivity]. exfalso. apply D. exact (crit_alone _ _ _ _ _ L Hu Hp C Cp).
Qed.
Lemma phases_free s s' t q : locks s -> em_locked s = false -> clients s' = upd (clients s) t q ->
  (em_locked s' = false -> rest s') -> phase q s' -> (im_locked s' = true -> self (reader s') = false -> is_set s' = true) -> (self (reader s') = true -> is_set s' = false /\ enabled s' = false) -> phases s'.
Proof.
  intros L F Ec R P M D0. split; [exact R|]. split; [|split; [exact M|exact D0]]. intros u r Hu. rewrite Ec in Hu. apply nth_upd in Hu as [[-> ->]|[D Hu]]; [exact P|].
  apply phase_out. exact (free_crit _ _ _ L F Hu).
Qed.

(** steps that change only the reading thread *)
Definition advances (s s' : sstate) : Prop :=
  (reader s = TNone -> reader s' = TNone) /\
  (enabled s = true -> alive (reader s) = true -> alive (reader s') = true) /\
  (is_set s = false -> finishing (reader s) = true -> finishing (reader s') = true).

Lemma phases_reader s s' : phases s -> clients s' = clients s -> em_locked s' = em_locked s -> is_set s' = is_set s -> enabled s' = enabled s ->
  advances s s' -> (im_locked s' = true -> self (reader s') = false -> is_set s' = true) -> (self (reader s') = true -> is_set s' = false /\ enabled s' = false) -> phases s'.
Proof.
  intros (R & P & M & D) Ec Ee Es Ea (A1 & A2 & A3) M' D'.
  assert (rest s -> rest s') as RR.
  { intros (R1 & R2). unfold rest. rewrite Es, Ea. split; [exact R1|]. destruct R2 as [[R2 R3]|[R2 R3]]; [left|right]; split; auto. apply A2; [congruence|exact R3]. }
  split; [|split; [|split; [exact M'|exact D']]].
  - rewrite Ee. auto.
  - rewrite Ec. intros t p H. specialize (P t p H). destruct p; cbn [phase] in *; rewrite ?Es, ?Ea; try tauto; intuition auto.
Qed.
Lemma phases_same s s' t q : phases s -> crit q = false -> clients s' = upd (clients s) t q -> em_locked s' = em_locked s -> is_set s' = is_set s -> enabled s' = enabled s ->
  reader s' = reader s -> (im_locked s' = true -> self (reader s') = false -> is_set s' = true) -> phases s'.
Proof.
  intros (R & P & M & D0) Cq Ec Ee Es Ea Et M'. unfold phases, rest in *. rewrite Ee, Es, Ea, Et, Ec in *. split; [exact R|split; [|split; [exact M'|exact D0]]].
  intros u r Hu. apply nth_upd in Hu as [[-> ->]|[D Hu]]; [apply phase_out; exact Cq|]. specialize (P u r Hu). destruct r; cbn [phase] in *; unfold rest in *; rewrite ?Es, ?Ea, ?Et; exact P.
Qed.
Lemma im_reader s : locks s -> in_cb (reader s) = true -> im_locked s = true.
Proof. intros (_ & I) C. rewrite C in I. destruct (im_locked s); [reflexivity|]. cbn [b2n] in I. lia. Qed.

Lemma step_phases s l s' : locks s -> phases s -> sstep s l = Some s' -> phases s'.
Proof.
  intros L P E. pose proof (im_reader s L) as IR. crack E; pose proof P as (R & PC & M & D0); tm; cbn [in_cb] in IR; try specialize (IR eq_refl).
  all: try match goal with H : nth_error (clients _) ?t = Some _, PC : forall t p, _ -> phase p _ |- _ => let F := fresh "F" in pose proof (PC _ _ H) as F; cbn [phase] in F end.
  all: try solve [match goal with P : phases ?s |- _ => apply (phases_reader s); sf; auto end; [unfold advances; sf; tm; cbn [alive finishing]; repeat split; intros; first [discriminate|congruence|auto]|..]; tm; cbn [self] in *; intros; first [discriminate|congruence|auto]].
  all: try match goal with L : locks ?x, Hp : nth_error (clients ?x) ?t = Some ?p |- phases _ => lazymatch eval cbn in (crit p) with true =>
      pose proof (crit_locked _ _ _ L Hp eq_refl) as (? & ?); eapply (phases_upd x); [exact L|exact Hp|reflexivity|reflexivity|..]; sf end end.
  all: try match goal with L : locks ?x, Hp : nth_error (clients ?x) ?t = Some ?p, He : em_locked ?x = false |- phases _ => eapply (phases_free x); [exact L|exact He|reflexivity|..]; sf end.
  all: try solve [eapply phases_same; [exact P|..]; [|reflexivity..|]; sf; auto; try reflexivity; try discriminate].
  all: unfold rest in *; cbn [phase]; unfold rest; sf; tm; cbn [alive finishing self] in *.
  all: try solve [intuition congruence].
  all: try (split; sf; [discriminate|]; split; sf; [intros t p H; apply phase_out; eapply free_crit; eassumption|]; split; sf; cbn [self] in *; intros; try discriminate; auto).
  all: repeat match goal with H : em_locked _ = _ |- _ => rewrite H in * end.
  all: try solve [intuition congruence].
  all: try solve [destruct (reader s); cbn [alive finishing self in_cb] in *; intuition (try discriminate; try congruence)].
Qed.

Lemma reach_inv c allowed s : sreachable c allowed s -> locks s /\ phases s.
Proof.
  induction 1 as [|s l s' H [IL IP] A E].
  - split.
    + unfold locks, made, sinit; sf. rewrite !number_repeat by reflexivity. cbn. auto.
    + unfold phases, rest, made, sinit; sf. repeat split; try discriminate; auto. intros t p Ht. assert (p = CIdle) as -> by (eapply nth_all; exact Ht). exact Logic.I.
  - split; [exact (step_count _ _ _ IL IP E)|exact (step_phases _ _ _ IL IP E)].
Qed.

Lemma reach_steps c allowed s ls : sreachable c allowed s -> Forall allowed ls -> forall s', ssteps s ls = Some s' -> sreachable c allowed s'.
Proof.
  intros R F. revert s R. induction F as [|l ls A F IH]; intros s R s' E; cbn [ssteps] in E; [injection E as <-; exact R|].
  destruct (sstep s l) as [s1|] eqn:E1; [|discriminate E]. exact (IH s1 (sr_step _ _ _ _ _ R A E1) s' E).
Qed.
Lemma weaken c (a b : slabel -> Prop) s : (forall l, a l -> b l) -> sreachable c a s -> sreachable c b s.
Proof. intros W. induction 1 as [|s l s' R IH A E]; [apply sr_init|]. eapply sr_step; [exact IH|apply W; exact A|exact E]. Qed.

(** ** Moments *)
Lemma moment_step s s' (e : sevent) older : (history s' = history s \/ exists x, history s' = x :: history s) -> moment s' e older ->
  moment s e older \/ (history s' = e :: history s /\ older = history s).
Proof.
  intros H (nw & M). destruct H as [H|[x H]]; rewrite H in M.
  - left. exists nw. exact M.
  - destruct nw as [|y nw]; cbn in M; injection M as M1 M2.
    + right. subst. auto.
    + left. exists nw. exact M2.
Qed.
Lemma step_history s l s' : sstep s l = Some s' -> history s' = history s \/ exists x, history s' = x :: history s.
Proof. intro E. crack E; eauto. Qed.
Lemma not_itself {A} (e : A) l : l = e :: l -> False.
Proof. intro H. apply (f_equal (@List.length _)) in H. cbn in H. lia. Qed.

(** ** Number of lines *)
Lemma asked_cons e ev : asked (e :: ev) = match e with VMore => 1 | _ => 0 end + asked ev.
Proof. unfold asked. cbn [filter]. destruct e; reflexivity. Qed.
Lemma begun_cons e ev : begun (e :: ev) = match e with VBegin => 1 | _ => 0 end + begun ev.
Proof. unfold begun. cbn [filter]. destruct e; reflexivity. Qed.
Lemma typed_cons e ev : typed (e :: ev) = typed ev ++ match e with VTyped l => [l] | _ => [] end.
Proof. unfold typed. cbn [rev]. rewrite flat_map_app. cbn [flat_map]. rewrite app_nil_r. reflexivity. Qed.
Lemma called_cons e ev : called (e :: ev) = called ev ++ match e with VCalled l => [l] | _ => [] end.
Proof. unfold called. cbn [rev]. rewrite flat_map_app. cbn [flat_map]. rewrite app_nil_r. reflexivity. Qed.
Lemma handled_cons e ev : handled (e :: ev) = handled ev ++ match e with VCalled l | VDropped l => [l] | _ => [] end.
Proof. unfold handled. cbn [rev]. rewrite flat_map_app. cbn [flat_map]. rewrite app_nil_r. reflexivity. Qed.
Lemma added_cons e ev : added (e :: ev) = added ev ++ match e with VAdded l => [l] | _ => [] end.
Proof. unfold added. cbn [rev]. rewrite flat_map_app. cbn [flat_map]. rewrite app_nil_r. reflexivity. Qed.

Definition is_reading (p : tpc) : bool := match p with TRead => true | _ => false end.
Definition counts (c : setup) (s : sstate) : Prop :=
  (exists k, (Z.of_N (value s) + Z.of_nat (begun (history s)) = lines c + Z.of_nat (asked (history s)) + k * 2 ^ 32)%Z) /\
  (0 <= lines c -> lines c + Z.of_nat (asked (history s)) < 2 ^ 32 -> Z.of_N (value s) + Z.of_nat (begun (history s)) = lines c + Z.of_nat (asked (history s)))%Z /\
  begun (history s) = List.length (typed (history s)) + b2n (is_reading (reader s)) /\
  (value s < 2 ^ 32)%N.

Lemma step_counts c s l s' : phases s -> counts c s -> sstep s l = Some s' -> counts c s'.
Proof.
  intros P C E. crack E; try match goal with H : nth_error (clients _) _ = Some SStart |- _ => let F := fresh in pose proof (proj1 (proj2 P) _ _ H) as F; cbn [phase] in F; destruct F as (_ & _ & F) end; clear P;
    destruct C as (C1 & C2 & C3 & C4); unfold counts; sf; tm; rewrite ?asked_cons, ?begun_cons, ?typed_cons, ?app_nil_r; cbn [Nat.add is_reading b2n] in *; try exact (conj C1 (conj C2 (conj C3 C4))).
  all: try (rewrite app_length; cbn [List.length]).
  all: repeat split; try assumption; try lia.
  all: try (destruct C1 as [k C1]; exists k; lia).
  all: try (destruct C1 as [k C1]; exists (if N.eqb (value s) (2 ^ 32 - 1) then k - 1 else k)%Z; unfold wrap;
    destruct (N.eqb_spec (value s) (2 ^ 32 - 1)) as [Q|Q]; [rewrite Q in *; change (((2 ^ 32 - 1) + 1) mod 2 ^ 32)%N with 0%N; lia|rewrite N.mod_small by lia; lia]).
  all: try (intros B1 B2; specialize (C2 B1 ltac:(lia)); unfold wrap; rewrite N.mod_small by lia; lia).
  all: try (unfold wrap; apply N.mod_lt; discriminate).
Qed.
Lemma reach_counts c allowed s : sreachable c allowed s -> counts c s.
Proof.
  induction 1 as [|s l s' H IH A E]; [|exact (step_counts _ _ _ _ (proj2 (reach_inv _ _ _ H)) IH E)].
  unfold counts, made, sinit, first_value; sf. change (asked []) with 0. change (begun []) with 0. change (typed []) with (@nil str). cbn [List.length is_reading b2n Nat.add].
  pose proof (Z.mod_pos_bound (lines c) (2 ^ 32) eq_refl) as B. rewrite Z2N.id by lia. split; [|split; [|split]]; try lia.
  exists (- (lines c / 2 ^ 32))%Z. pose proof (Z.div_mod (lines c) (2 ^ 32)). lia.
Qed.

Lemma lines_lemma c allowed s : sreachable c allowed s -> (0 <= lines c)%Z -> (requested c s < 2 ^ 32)%Z ->
  (Z.of_nat (List.length (typed (history s))) <= Z.of_nat (begun (history s)) <= requested c s)%Z /\
  (waiting s -> Z.of_nat (List.length (typed (history s))) = requested c s).
Proof.
  intros R B1 B2. apply reach_counts in R. destruct R as (_ & C2 & C3 & C4). unfold requested in *. specialize (C2 B1 B2).
  split; [lia|]. intros (W1 & W2 & W3). rewrite W1 in C3. cbn [is_reading b2n] in C3. lia.
Qed.

(** ** Delivery *)
Definition pending (p : tpc) : list str := match p with TLine l => [l] | _ => [] end.
Definition unadded (p : tpc) : list str := match p with TLine l | TIn l | TNest _ l | TAdd l => [l] | _ => [] end.
Definition delivers (s : sstate) : Prop := typed (history s) = handled (history s) ++ pending (reader s).

Lemma step_delivers s l s' : phases s -> delivers s -> sstep s l = Some s' -> delivers s'.
Proof.
  intros P D E. unfold delivers in *. crack E; try match goal with H : nth_error (clients _) _ = Some SStart |- _ => let F := fresh in pose proof (proj1 (proj2 P) _ _ H) as F; cbn [phase] in F; destruct F as (_ & _ & F) end; clear P;
    tm; rewrite ?typed_cons, ?handled_cons, ?app_nil_r; cbn [pending] in *; rewrite ?app_nil_r in *; congruence.
Qed.
Lemma reach_delivers c allowed s : sreachable c allowed s -> delivers s.
Proof. induction 1 as [|s l s' H IH A E]; [reflexivity|]. exact (step_delivers _ _ _ (proj2 (reach_inv _ _ _ H)) IH E). Qed.
Lemma delivers_lemma c allowed s : sreachable c allowed s -> exists later, typed (history s) = handled (history s) ++ later /\ List.length later <= 1 /\ (reader s = TWait -> later = []).
Proof. intro R. exists (pending (reader s)). split; [exact (reach_delivers _ _ _ R)|]. split; [destruct (reader s); cbn; lia|intro W; rewrite W; reflexivity]. Qed.

(** is_callback_set_ *)
Definition kept (s : sstate) : Prop := self (reader s) = false -> last_kept (history s) = is_set s.
Lemma step_kept s l s' : phases s -> kept s -> sstep s l = Some s' -> kept s'.
Proof.
  intros P K E. unfold kept in *. crack E; tm; cbn [last_kept self] in *; auto; try (intros; discriminate); try congruence.
  all: try (intro Q; specialize (K Q); congruence).
  all: match goal with H : nth_error (clients _) _ = Some SStart |- _ => let F := fresh in pose proof (proj1 (proj2 P) _ _ H) as F; cbn [phase] in F; destruct F as (_ & _ & F); rewrite F in K; intros _; apply K; reflexivity end.
Qed.
Lemma reach_kept c allowed s : sreachable c allowed s -> kept s.
Proof. induction 1 as [|s l s' H IH A E]; [intros _; reflexivity|]. exact (step_kept _ _ _ (proj2 (reach_inv _ _ _ H)) IH E). Qed.

Lemma dropped_lemma c allowed s l older : sreachable c allowed s -> moment s (VDropped l) older -> last_kept older = false.
Proof.
  intros H M. induction H as [|s a s' H IH A E]; [destruct M as ([|x nw] & M); discriminate M|].
  destruct (moment_step _ _ _ _ (step_history _ _ _ E) M) as [M'|[Eh ->]]; [exact (IH M')|].
  pose proof (reach_kept _ _ _ H) as K. unfold kept in K. clear M.
  crack E; try (exfalso; exact (not_itself _ _ Eh)); try discriminate Eh. tm. apply K. reflexivity.
Qed.

(** ** Unset *)
Definition unset_inv (s : sstate) : Prop := last_set (history s) = false -> is_set s = false /\ reader s = TNone.
Ltac know :=
  match goal with H : nth_error (clients ?s) ?t = Some _, P : phases ?s |- _ => let F := fresh "F" in pose proof (proj1 (proj2 P) _ _ H) as F; cbn [phase] in F end.
Lemma step_unset s l s' : phases s -> unset_inv s -> sstep s l = Some s' -> unset_inv s'.
Proof.
  unfold unset_inv. intros P I E. crack E; cbn [last_set]; try know; try discriminate; try exact I; intro Q.
  all: try (destruct (I Q) as [J T]; try congruence).
  all: unfold rest in *; try solve [intuition congruence].
Qed.
Lemma reach_unset c allowed s : sreachable c allowed s -> unset_inv s.
Proof. induction 1 as [|s l s' H IH A E]; [intros _; split; reflexivity|]. exact (step_unset _ _ _ (proj2 (reach_inv _ _ _ H)) IH E). Qed.

Lemma not_running s : locks s -> phases s -> is_set s = false -> reader s = TNone -> ~ running s.
Proof.
  intros (_ & L) (_ & _ & M & _) S T R. assert (im_locked s = true) as I.
  - destruct R as [R|[t R]]; [rewrite T in R; destruct R|]. pose proof (number_ge (fun p => b2n (simulating p)) _ _ _ R) as G. cbn in G. destruct (im_locked s); [reflexivity|]. cbn [b2n] in L. lia.
  - rewrite (M I) in S by (rewrite T; reflexivity). discriminate S.
Qed.
Lemma unset_lemma c allowed s : sreachable c allowed s -> last_set (history s) = false -> ~ running s /\ reader s = TNone.
Proof.
  intros H Q. destruct (reach_unset _ _ _ H Q) as [S T]. destruct (reach_inv _ _ _ H) as [L P]. split; [|auto]. exact (not_running s L P S T).
Qed.
Lemma only_set_lemma c allowed s e older : sreachable c allowed s -> moment s e older -> a_call e -> last_kept older = true.
Proof.
  intros H M C. induction H as [|s a s' H IH A E]; [destruct M as ([|x nw] & M); discriminate M|].
  destruct (moment_step _ _ _ _ (step_history _ _ _ E) M) as [M'|[Eh ->]]; [exact (IH M')|].
  pose proof (reach_kept _ _ _ H) as K. unfold kept in K. destruct (reach_inv _ _ _ H) as [L P]. clear M.
  assert (self (reader s) = true -> is_set s = false) as SF by (intro Q; exact (proj1 (proj2 (proj2 (proj2 P)) Q))).
  crack E; try (exfalso; exact (not_itself _ _ Eh)); injection Eh as <-; cbn in C; try contradiction; tm; cbn [self] in *; try (apply K; reflexivity).
  all: destruct (self (reader s)) eqn:Q; [discriminate (SF eq_refl)|apply K; reflexivity].
Qed.

(** ** The history of commands *)
Definition adds (s : sstate) : Prop := ignoring s = false /\ (self (reader s) = false -> added (history s) ++ filter filled (unadded (reader s)) = filter filled (typed (history s))).
Lemma step_adds s l s' : phases s -> adds s -> attentive l -> sstep s l = Some s' -> adds s'.
Proof.
  intros P [I D] A E. unfold adds in *.
  crack E; try contradiction A; try match goal with H : nth_error (clients _) _ = Some SStart |- _ => let F := fresh in pose proof (proj1 (proj2 P) _ _ H) as F; cbn [phase] in F; destruct F as (_ & _ & F) end; clear P;
    tm; (split; [exact I|]); rewrite ?typed_cons, ?added_cons, ?filter_app; cbn [unadded self filter] in *; rewrite ?app_nil_r in *; intro Q; try discriminate Q; try specialize (D eq_refl); try specialize (D Q); rewrite ?app_nil_r in *; try congruence.
  all: destruct x; cbn in *; rewrite ?I in *; try discriminate; rewrite ?app_nil_r in *; congruence.
Qed.
Lemma reach_adds c s : sreachable c attentive s -> adds s.
Proof. induction 1 as [|s l s' H IH A E]; [split; reflexivity|]. exact (step_adds _ _ _ (proj2 (reach_inv _ _ _ H)) IH A E). Qed.
Lemma adds_lemma c s : sreachable c attentive s -> reader s = TWait -> added (history s) = filter filled (typed (history s)).
Proof. intros R W. destruct (reach_adds _ _ R) as [_ D]. rewrite W in D. specialize (D eq_refl). cbn in D. rewrite app_nil_r in D. exact D. Qed.

(** ** The terminal *)
Definition raw_now (p : tpc) : bool := match p with TNone | TRaw | TEnded => false | _ => true end.
Definition modes_inv (c : setup) (s : sstate) : Prop := if raw_now (reader s) then flags (term s) = raw (initial c) /\ oldt (term s) = initial c else flags (term s) = initial c.
Lemma step_modes c s l s' : phases s -> modes_inv c s -> sstep s l = Some s' -> modes_inv c s'.
Proof.
  intros P M E. unfold modes_inv in *. crack E; try know; tm; cbn [raw_now set_terminal_mode flags oldt] in *; try exact M.
  - rewrite M. auto.
  - tauto.
  - destruct F as (_ & _ & F). rewrite F in M. exact M.
Qed.
Lemma reach_modes c allowed s : sreachable c allowed s -> modes_inv c s.
Proof. induction 1 as [|s l s' H IH A E]; [reflexivity|]. exact (step_modes _ _ _ _ (proj2 (reach_inv _ _ _ H)) IH E). Qed.
Lemma restored_lemma c allowed s : sreachable c allowed s -> last_set (history s) = false -> flags (term s) = initial c.
Proof. intros R Q. pose proof (reach_modes _ _ _ R) as M. unfold modes_inv in M. rewrite (proj2 (unset_lemma _ _ _ R Q)) in M. exact M. Qed.
Lemma source_lemma c allowed s : sreachable c allowed s -> source s = stream c.
Proof. induction 1 as [|s l s' H IH A E]; [reflexivity|]. rewrite <- IH. clear - E. crack E; reflexivity. Qed.

Lemma raw_idem f : is_raw (raw f).
Proof. unfold is_raw, raw. rewrite !N.ldiff_spec. cbn. rewrite !Bool.andb_false_r. auto. Qed.
Lemma raw_other f k : k <> 0%N -> k <> 1%N -> k <> 3%N -> N.testbit (raw f) k = N.testbit f k.
Proof.
  intros H0 H1 H3. unfold raw. rewrite N.ldiff_spec. assert (N.testbit 11 k = false) as ->; [|apply Bool.andb_true_r].
  destruct k as [|[[[p|p|]|p|]|[p|p|]|]]; try reflexivity; try congruence; destruct p; reflexivity.
Qed.

Lemma reading_lemma c allowed s : sreachable c allowed s -> reader s = TRead ->
  is_raw (flags (term s)) /\ forall k, k <> 0%N -> k <> 1%N -> k <> 3%N -> N.testbit (flags (term s)) k = N.testbit (initial c) k.
Proof. intros R H. pose proof (reach_modes _ _ _ R) as M. unfold modes_inv in M. rewrite H in M. destruct M as [-> _]. split; [apply raw_idem|apply raw_other]. Qed.

Lemma mode_on x h : existsb (Nat.eqb h) (active x) = false -> mode_step x h = {| shared := {| flags := raw (flags (shared x)); oldt := flags (shared x) |}; active := h :: active x |}.
Proof. intro H. unfold mode_step. rewrite H. reflexivity. Qed.
Lemma mode_twice x h : active x = [] -> mode_step (mode_step x h) h = {| shared := {| flags := flags (shared x); oldt := flags (shared x) |}; active := [] |}.
Proof.
  intro H. rewrite (mode_on x h) by (rewrite H; reflexivity). unfold mode_step. cbn [active existsb]. rewrite Nat.eqb_refl. cbn [orb shared set_terminal_mode oldt filter]. rewrite Nat.eqb_refl. cbn [negb]. rewrite H. reflexivity.
Qed.
Lemma sessions_gen hs : forall x, active x = [] -> let y := fold_left mode_step (sessions hs) x in flags (shared y) = flags (shared x) /\ active y = [].
Proof.
  induction hs as [|h hs IH]; intros x H; cbn [sessions fold_left]; [auto|]. rewrite (mode_twice x h H).
  cbn zeta in IH. destruct (IH {| shared := {| flags := flags (shared x); oldt := flags (shared x) |}; active := [] |} eq_refl) as [I1 I2]. auto.
Qed.
Lemma sessions_lemma f hs : flags (shared (modes f (sessions hs))) = f /\ active (modes f (sessions hs)) = [].
Proof. unfold modes. exact (sessions_gen hs {| shared := {| flags := f; oldt := 0%N |}; active := [] |} eq_refl). Qed.

(** while a handler is active the terminal is raw *)
Definition raw_inv (x : terminals) : Prop := active x <> [] -> is_raw (flags (shared x)).
Definition lost (x : terminals) : Prop := is_raw (flags (shared x)) /\ is_raw (oldt (shared x)).
Lemma lost_step x h : lost x -> lost (mode_step x h).
Proof.
  intros [L1 L2]. unfold lost, mode_step. destruct (existsb _ _); cbn; [auto|]. split; [apply raw_idem|exact L1].
Qed.
Lemma lost_steps hs : forall x, lost x -> lost (fold_left mode_step hs x).
Proof. induction hs as [|h hs IH]; intros x L; cbn; [exact L|]. apply IH. apply lost_step. exact L. Qed.
(** once a second handler is active: either the mode was already lost *)
Definition one_inv (x : terminals) : Prop := lost x \/ active x = [] \/ exists h, active x = [h] /\ is_raw (flags (shared x)).
Lemma one_step x h : one_inv x -> one_inv (mode_step x h).
Proof.
  intros [L|[A|(g & A & R)]].
  - left. apply lost_step. exact L.
  - right. right. exists h. rewrite mode_on by (rewrite A; reflexivity). cbn. rewrite A. split; [reflexivity|apply raw_idem].
  - destruct (Nat.eqb_spec h g) as [->|D].
    + right. left. unfold mode_step. rewrite A. cbn [existsb]. rewrite Nat.eqb_refl. cbn. rewrite Nat.eqb_refl. reflexivity.
    + left. rewrite mode_on by (rewrite A; cbn; destruct (Nat.eqb_spec h g); [contradiction|reflexivity]). split; cbn; [apply raw_idem|exact R].
Qed.
Lemma modes_one f hs : one_inv (modes f hs).
Proof.
  unfold modes. assert (one_inv {| shared := {| flags := f; oldt := 0%N |}; active := [] |}) as H by (right; left; reflexivity).
  revert H. generalize {| shared := {| flags := f; oldt := 0%N |}; active := [] |}. induction hs as [|h hs IH]; intros x H; cbn; [exact H|]. apply IH. apply one_step. exact H.
Qed.
Lemma overlap_lemma f hs hs' g h l : active (modes f hs) = g :: h :: l -> is_raw (flags (shared (modes f (hs ++ hs')))).
Proof.
  intro A. destruct (modes_one f hs) as [L|[B|(k & B & _)]]; try congruence. unfold modes. rewrite fold_left_app. exact (proj1 (lost_steps hs' _ L)).
Qed.

(** ** Progress *)
Lemma quiet_reader c s : sreachable c quiet s -> (forall b l, reader s <> TNest b l) /\ self (reader s) = false.
Proof.
  induction 1 as [|s l s' H [IH1 IH2] A E]; [split; [discriminate|reflexivity]|].
  crack E; cbn [quiet] in A; try contradiction; split; try discriminate; try assumption; try congruence; try reflexivity.
  all: exfalso; eapply IH1; reflexivity.
Qed.
Lemma no_terminate c s : sreachable c quiet s -> ~ In VTerminate (history s).
Proof.
  induction 1 as [|s l s' H IH A E]; [intros []|]. destruct (quiet_reader _ _ H) as [Q1 Q2].
  crack E; cbn [In]; try exact IH; try (intros [Q|Q]; [discriminate Q|exact (IH Q)]). tm. discriminate Q2.
Qed.

Lemma number_pos {A} (f : A -> nat) l : 0 < number_of f l -> exists i x, nth_error l i = Some x /\ 0 < f x.
Proof.
  induction l as [|a l IH]; unfold number_of in *; cbn; intro H; [lia|]. destruct (f a) eqn:Fa.
  - destruct IH as (i & x & Hx & Fx); [lia|]. exists (Datatypes.S i), x. auto.
  - exists 0, a. split; [reflexivity|lia].
Qed.
Lemma has_crit s : locks s -> em_locked s = true -> self (reader s) = false -> exists t p, nth_error (clients s) t = Some p /\ crit p = true.
Proof.
  intros (L & _) E N. rewrite E, N in L. cbn [b2n] in L.
  destruct (number_pos (fun p => b2n (crit p)) (clients s)) as (t & p & H & C); [lia|]. exists t, p. split; [exact H|]. destruct (crit p); [reflexivity|]. cbn in C. lia.
Qed.
Lemma has_simulating s : locks s -> im_locked s = true -> in_cb (reader s) = false -> exists t, nth_error (clients s) t = Some EIn.
Proof.
  intros (_ & L) E F. rewrite E, F in L. cbn [b2n] in L.
  destruct (number_pos (fun p => b2n (simulating p)) (clients s)) as (t & p & H & C); [lia|]. exists t. destruct p; cbn in C; try lia. exact H.
Qed.

Lemma moves c s t p : sreachable c quiet s -> nth_error (clients s) t = Some p -> inside p -> reader s <> TRead -> exists l, own_step l /\ sstep s l <> None.
Proof.
  intros R Ht Hi NR. destruct (reach_inv _ _ _ R) as [L P]. destruct (quiet_reader _ _ R) as [Q1 Q2].
  destruct (in_cb (reader s)) eqn:C.
  { exists Reader. split; [exact Logic.I|]. cbn [sstep]. unfold reader_step. destruct (reader s) as [| | | | | |b l| | | | |]; try discriminate C; try discriminate Q2; try discriminate. destruct (Q1 b l eq_refl). }
  destruct (im_locked s) eqn:Im.
  { destruct (has_simulating _ L Im C) as [u Hu]. exists (Run u). split; [exact Logic.I|]. cbn [sstep]. rewrite Hu. discriminate. }
  destruct (em_locked s) eqn:Em.
  - destruct (has_crit _ L Em Q2) as (u & q & Hu & Cq). pose proof (proj1 (proj2 P) _ _ Hu) as F.
    destruct q; try discriminate Cq; cbn [phase] in F;
      try solve [exists (Run u); split; [exact Logic.I|]; cbn [sstep]; rewrite Hu; cbn [cstep]; rewrite ?Im; try destruct (is_set s); discriminate].
    destruct F as (F1 & F2 & F3). destruct (reader s) eqn:W; try discriminate F3; try congruence.
    6: exists (Run u); split; [exact Logic.I|]; cbn [sstep]; rewrite Hu; cbn [cstep]; rewrite W; discriminate.
    all: exists Reader; split; [exact Logic.I|]; cbn [sstep]; unfold reader_step; rewrite W, ?F1, ?F2, ?Im; try discriminate. destruct (_ && _); discriminate.
  - pose proof (free_crit _ _ _ L Em Ht) as Cp. exists (Run t). split; [exact Logic.I|]. cbn [sstep]. rewrite Ht.
    destruct p; try discriminate Cp; cbn [cstep]; rewrite ?Em, ?Im; try destruct (is_set s); try discriminate; exfalso; apply Hi; reflexivity.
Qed.
Lemma rest_lemma c s : sreachable c quiet s -> at_rest s -> reader s = TRead \/ forall t p, nth_error (clients s) t = Some p -> p = CIdle.
Proof.
  intros R N. assert (reader s = TRead \/ reader s <> TRead) as [W|W] by (destruct (reader s); auto; right; discriminate); [left; exact W|right].
  intros t p Ht. assert (p = CIdle \/ inside p) as [Q|Q] by (destruct p; auto; right; discriminate); [exact Q|]. destruct (moves _ _ _ _ R Ht Q W) as (l & O & X). destruct (X (N l O)).
Qed.

Definition reader_work (p : tpc) : nat := match p with TNone | TRead | TEnded | TDead => 0 | TRestore | TSelf => 1 | TWait => 2 | TRaw | TAdd _ => 3 | TIn _ => 4 | TLine _ | TNest _ _ => 5 end.
Definition client_work (p : cpc) : nat := match p with CIdle => 0 | SUnlock | UUnlock | EIn | PMore => 1 | UJoin | ELock _ => 2 | UDisable => 3 | UClear => 4 | ULock | SStart => 5 | SEnable => 6 | SSet => 7 | SLock => 8 end.
Definition work (s : sstate) : nat := number_of client_work (clients s) + reader_work (reader s).
Lemma work_step s l s' : phases s -> own_step l -> sstep s l = Some s' -> work s' < work s.
Proof.
  intros P O E. crack E; try contradiction O; try know; unfold work; sf; tm; cbn [reader_work]; try lia.
  all: match goal with H : nth_error (clients ?s) ?t = Some _ |- context [upd (clients ?s) ?t ?q] => pose proof (number_upd client_work _ _ q _ H) as G; cbn [client_work] in G; try lia end.
Qed.
Lemma work_steps c allowed ls : forall s s', sreachable c allowed s -> Forall own_step ls -> ssteps s ls = Some s' -> List.length ls + work s' <= work s.
Proof.
  induction ls as [|l ls IH]; intros s s' R F E; cbn [ssteps List.length] in *; [injection E as <-; lia|].
  destruct (sstep s l) as [y|] eqn:E1; [|discriminate E]. inversion F as [|? ? F1 F2]; subst.
  apply (weaken _ _ anything) in R; [|intros; exact Logic.I].
  pose proof (work_step _ _ _ (proj2 (reach_inv _ _ _ R)) F1 E1).
  assert (sreachable c anything y) as Ry by (eapply sr_step; [exact R|exact Logic.I|exact E1]).
  assert (List.length ls + work s' <= work y); [|lia]. clear - IH Ry F2 E.
  revert y s' Ry F2 E. clear IH. induction ls as [|l ls IH]; intros s s' R F E; cbn [ssteps List.length] in *; [injection E as <-; lia|].
  destruct (sstep s l) as [y|] eqn:E1; [|discriminate E]. inversion F as [|? ? F1 F2]; subst.
  pose proof (work_step _ _ _ (proj2 (reach_inv _ _ _ R)) F1 E1).
  assert (sreachable c anything y) as Ry by (eapply sr_step; [exact R|exact Logic.I|exact E1]). specialize (IH _ _ Ry F2 E). lia.
Qed.
Lemma own_quiet l : own_step l -> quiet l. Proof. destruct l; cbn; tauto. Qed.
Lemma progress_lemma c s : sreachable c quiet s -> exists bound, forall ls s', Forall own_step ls -> ssteps s ls = Some s' ->
  List.length ls <= bound /\ (at_rest s' -> reader s' = TRead \/ forall t p, nth_error (clients s') t = Some p -> p = CIdle).
Proof.
  intro R. exists (work s). intros ls s' F E. pose proof (work_steps _ _ _ _ _ R F E). split; [lia|]. apply (rest_lemma c).
  eapply reach_steps; [exact R|eapply Forall_impl; [exact own_quiet|exact F]|exact E].
Qed.

Definition leaving (t : nat) (s : sstate) : Prop := (nth_error (clients s) t = Some UJoin /\ reader s <> TRead) \/ nth_error (clients s) t = Some UUnlock \/ nth_error (clients s) t = Some CIdle.
Lemma leaving_step t s l s' : phases s -> leaving t s -> own_step l -> sstep s l = Some s' -> leaving t s'.
Proof.
  intros P V O E. assert (nth_error (clients s) t = Some UJoin -> enabled s = false) as EN by (intro H; pose proof (proj1 (proj2 P) _ _ H) as F; cbn [phase] in F; tauto).
  unfold leaving in *. crack E; try contradiction O; tm; try exact V.
  all: try (destruct V as [[V1 V2]|V]; [left; split; [exact V1|discriminate]|right; exact V]).
  { destruct V as [[V1 V2]|V]; [specialize (EN V1); congruence|right; exact V]. }
  all: match goal with H : nth_error (clients ?s) ?u = Some _ |- context [upd (clients ?s) ?u ?q] => destruct (Nat.eq_dec u t) as [->|D]; [rewrite (nth_upd_same _ _ _ _ H)|rewrite (nth_upd_other _ _ _ _ D)] end; try exact V.
  all: try (destruct V as [[V1 V2]|[V|V]]; congruence).
  all: auto.
  all: try (destruct V as [[V1 V2]|V]; [left; split; [exact V1|discriminate]|right; exact V]).
Qed.
Lemma leaving_steps c t ls : forall s s', sreachable c quiet s -> leaving t s -> Forall own_step ls -> ssteps s ls = Some s' -> leaving t s'.
Proof.
  induction ls as [|l ls IH]; intros s s' R V F E; cbn [ssteps] in E; [injection E as <-; exact V|].
  destruct (sstep s l) as [y|] eqn:E1; [|discriminate E]. inversion F as [|? ? F1 F2]; subst.
  eapply (IH y); [|exact (leaving_step _ _ _ _ (proj2 (reach_inv _ _ _ R)) V F1 E1)|exact F2|exact E]. eapply sr_step; [exact R|apply own_quiet; exact F1|exact E1].
Qed.
Lemma one_line_lemma c s t l : sreachable c quiet s -> nth_error (clients s) t = Some UJoin -> reader s = TRead -> exists bound s1, sstep s (Typed l) = Some s1 /\
  forall ls s', Forall own_step ls -> ssteps s1 ls = Some s' -> List.length ls <= bound /\ (at_rest s' -> nth_error (clients s') t = Some CIdle).
Proof.
  intros R Ht W. assert (sstep s (Typed l) = Some (say (set_reader s (TLine l)) (VTyped l))) as E1 by (cbn [sstep]; rewrite W; reflexivity).
  exists (work (say (set_reader s (TLine l)) (VTyped l))), (say (set_reader s (TLine l)) (VTyped l)). split; [exact E1|]. intros ls s' F E.
  assert (sreachable c quiet (say (set_reader s (TLine l)) (VTyped l))) as R1 by (eapply (sr_step _ _ _ (Typed l)); [exact R|exact Logic.I|exact E1]).
  pose proof (work_steps _ _ _ _ _ R1 F E). split; [lia|]. intro N.
  assert (leaving t s') as V by (eapply leaving_steps; [exact R1|left; split; [exact Ht|discriminate]|exact F|exact E]).
  assert (sreachable c quiet s') as R' by (eapply reach_steps; [exact R1|eapply Forall_impl; [exact own_quiet|exact F]|exact E]).
  destruct V as [[V1 V2]|[V|V]]; [|pose proof (N (Run t) Logic.I) as X; cbn [sstep] in X; rewrite V in X; discriminate X|exact V].
  destruct (rest_lemma _ _ R' N) as [Q|Q]; [congruence|discriminate (Q _ _ V1)].
Qed.

(** ** Blocked *)
Lemma blocked_inv (I : sstate -> Prop) excluded t s : I s -> (forall s, I s -> exists p, nth_error (clients s) t = Some p /\ inside p) ->
  (forall s l s', I s -> ~ excluded l -> sstep s l = Some s' -> I s') -> blocked excluded s t.
Proof.
  intros H0 Hi Hs ls. revert s H0. induction ls as [|l ls IH]; intros s H s' N E; cbn [ssteps] in E; [injection E as <-; exact (Hi _ H)|].
  destruct (sstep s l) as [s1|] eqn:E1; [|discriminate E]. apply (IH s1); [|intros; apply N; right; assumption|exact E]. eapply Hs; [exact H|apply N; left; reflexivity|exact E1].
Qed.
Definition joining (t : nat) (s : sstate) : Prop := locks s /\ phases s /\ nth_error (clients s) t = Some UJoin /\ reader s = TRead.
Lemma joining_step t s l s' : joining t s -> ~ typing l -> sstep s l = Some s' -> joining t s'.
Proof.
  intros (L & P & Ht & W) N E. pose proof (step_count _ _ _ L P E) as L'. pose proof (step_phases _ _ _ L P E) as P'. split; [exact L'|]. split; [exact P'|]. clear L' P'.
  assert (forall u q, nth_error (clients s) u = Some q -> crit q = true -> u = t) as A by (intros u q Hu Cq; eapply crit_alone; [exact L|exact Hu|exact Ht|exact Cq|reflexivity]).
  crack E; try congruence; try (exfalso; apply N; exact Logic.I); try (split; assumption).
  all: try match goal with H : nth_error (clients _) ?u = Some ?q |- _ => lazymatch eval cbn in (crit q) with true => pose proof (A _ _ H eq_refl); subst u; congruence end end.
  all: match goal with H : nth_error (clients ?s) ?u = Some _ |- context [upd (clients ?s) ?u ?q] => destruct (Nat.eq_dec u t) as [->|D]; [congruence|rewrite (nth_upd_other _ _ _ _ D)] end; auto.
Qed.
Lemma join_blocked c allowed s t : sreachable c allowed s -> nth_error (clients s) t = Some UJoin -> reader s = TRead -> blocked typing s t.
Proof.
  intros R Ht W. destruct (reach_inv _ _ _ R) as [L P]. apply (blocked_inv (joining t)); [exact (conj L (conj P (conj Ht W)))| |intros; eapply joining_step; eassumption].
  intros x (_ & _ & H & _). exists UJoin. split; [exact H|discriminate].
Qed.

Definition embraced (t : nat) (s : sstate) : Prop := em_locked s = true /\ im_locked s = true /\ is_set s = true /\ (exists b l, reader s = TNest b l) /\ (nth_error (clients s) t = Some UClear \/ nth_error (clients s) t = Some SSet) /\
  (forall u q, nth_error (clients s) u = Some q -> crit q = true -> u = t) /\ (forall u, nth_error (clients s) u <> Some EIn).
Lemma embraced_step t s l s' : embraced t s -> sstep s l = Some s' -> embraced t s'.
Proof.
  intros (I1 & I2 & I3 & (b0 & l0 & I4) & I5 & I6 & I7) E.
  crack E; try congruence; try (repeat split; eauto; fail).
  all: try match goal with H : nth_error (clients _) ?u = Some ?q |- _ => lazymatch eval cbn in (crit q) with true => pose proof (I6 _ _ H eq_refl); subst u; destruct I5; congruence end end.
  all: try (exfalso; eapply I7; eassumption).
  all: assert (t0 <> t) as D by (intros ->; destruct I5; congruence); unfold embraced; sf; rewrite (nth_upd_other _ _ _ _ D); repeat split; eauto.
  all: try (intros u q Hu Cq; apply nth_upd in Hu as [[-> ->]|[_ Hu]]; [cbn in Cq; discriminate Cq|exact (I6 _ _ Hu Cq)]).
  all: try (intros u Hu; apply nth_upd in Hu as [[_ Hu]|[_ Hu]]; [cbn in Hu; discriminate Hu|exact (I7 _ Hu)]).
Qed.
Lemma embrace_blocked c allowed s t b l : sreachable c allowed s -> reader s = TNest b l -> nth_error (clients s) t = Some UClear \/ nth_error (clients s) t = Some SSet -> blocked nothing_excluded s t.
Proof.
  intros R W Ht. destruct (reach_inv _ _ _ R) as [L P]. apply (blocked_inv (embraced t)).
  - assert (im_locked s = true) as Im by (apply im_reader; [exact L|rewrite W; reflexivity]).
    assert (exists p, nth_error (clients s) t = Some p /\ crit p = true) as (p & Hp & Cp) by (destruct Ht as [Ht|Ht]; eexists; (split; [exact Ht|reflexivity])).
    repeat split; eauto.
    + exact (proj1 (crit_locked _ _ _ L Hp Cp)).
    + apply (proj1 (proj2 (proj2 P))); [exact Im|rewrite W; reflexivity].
    + intros u q Hu Cq. eapply crit_alone; [exact L|exact Hu|exact Hp|exact Cq|exact Cp].
    + intros u Hu. destruct L as [_ L]. pose proof (number_ge (fun p => b2n (simulating p)) _ _ _ Hu) as G. cbn in G. rewrite W, Im in L. cbn [in_cb b2n] in L. lia.
  - intros x (_ & _ & _ & _ & [H|H] & _); eexists; (split; [exact H|discriminate]).
  - intros x a x' I _ E. eapply embraced_step; eassumption.
Qed.

(** ** Without unset_callback *)
Definition cleared (ev : list sevent) : bool := existsb (fun e => match e with VClearing _ => true | _ => false end) ev.
Lemma uncleared ev : (forall t, ~ In (VClearing t) ev) -> cleared ev = false.
Proof.
  intro N. destruct (cleared ev) eqn:C; [|reflexivity]. apply existsb_exists in C as (e & I & Q). destruct e; try discriminate Q. destruct (N _ I).
Qed.
Lemma set_kept ev : cleared ev = false -> last_set ev = true -> last_kept ev = true.
Proof.
  induction ev as [|e ev IH]; [discriminate|]. cbn [cleared existsb last_set last_kept]. destruct e; cbn [orb]; try discriminate; auto.
Qed.
Definition direct (s : sstate) : Prop := cleared (history s) = false -> handled (history s) = called (history s).
Lemma step_direct s l s' : kept s -> unset_inv s -> direct s -> sstep s l = Some s' -> direct s'.
Proof.
  intros K U D E. unfold direct in *. crack E; cbn [cleared existsb orb]; rewrite ?handled_cons, ?called_cons, ?app_nil_r; try exact D; try discriminate.
  all: intro C; rewrite ?D by exact C; try reflexivity.
  exfalso. unfold kept, unset_inv in *. tm. cbn [self] in K. specialize (K eq_refl). destruct (last_set (history s)) eqn:Q; [|destruct (U eq_refl); discriminate].
  pose proof (set_kept _ C Q). congruence.
Qed.
Lemma reach_direct c allowed s : sreachable c allowed s -> direct s.
Proof. induction 1 as [|s l s' H IH A E]; [intros _; reflexivity|]. exact (step_direct _ _ _ (reach_kept _ _ _ H) (reach_unset _ _ _ H) IH E). Qed.
Lemma each_lemma c allowed s : sreachable c allowed s -> (forall t, ~ In (VClearing t) (history s)) -> exists later, typed (history s) = called (history s) ++ later /\ List.length later <= 1 /\ (reader s = TWait -> later = []).
Proof.
  intros R N. rewrite <- (reach_direct _ _ _ R (uncleared _ N)). exact (delivers_lemma _ _ _ R).
Qed.

(** ** Many requests *)
Lemma many c allowed n : forall s, sreachable c allowed s -> (forall t k, allowed (Call t k)) -> (forall t, allowed (Run t)) -> nth_error (clients s) 0 = Some CIdle -> (value s < 2 ^ 32)%N ->
  exists s', sreachable c allowed s' /\ value s' = wrap (value s + N.of_nat n) /\ enabled s' = enabled s /\ reader s' = reader s /\ asked (history s') = asked (history s) + n /\ typed (history s') = typed (history s).
Proof.
  induction n as [|n IH]; intros s R A1 A2 H V.
  - exists s. repeat split; auto. unfold wrap. change (N.of_nat 0) with 0%N. rewrite N.add_0_r, N.mod_small; [reflexivity|exact V].
  - assert (exists s1, sstep s (Call 0 More) = Some s1) as [s1 E1] by (cbn [sstep]; rewrite H; eauto).
    assert (s1 = set_client s 0 PMore) as Q1 by (cbn [sstep] in E1; rewrite H in E1; injection E1 as <-; reflexivity).
    assert (nth_error (clients s1) 0 = Some PMore) as H1 by (rewrite Q1; sf; eapply nth_upd_same; exact H).
    assert (sstep s1 (Run 0) = Some (one_more (set_client s1 0 CIdle))) as E2 by (cbn [sstep]; rewrite H1; reflexivity).
    destruct (IH (one_more (set_client s1 0 CIdle))) as (s' & R' & V' & En' & Re' & As' & Ty'); auto.
    + eapply sr_step; [eapply sr_step; [exact R|apply A1|exact E1]|apply A2|exact E2].
    + unfold one_more; sf. eapply nth_upd_same; exact H1.
    + unfold one_more; sf. unfold wrap. apply N.mod_lt. discriminate.
    + exists s'. split; [exact R'|]. unfold one_more in *; sf. rewrite asked_cons in As'. rewrite typed_cons, app_nil_r in Ty'. rewrite Q1 in *; sf. repeat split; try assumption.
      * rewrite V'. unfold wrap. rewrite N.add_mod_idemp_l by discriminate. f_equal. lia.
      * rewrite As'. cbn. lia.
Qed.
