(** Proofs about periodic event handlers. *)
From Coq Require Import ZifyBool ZifyNat ZifyN.
From Verif Require Import Periodic_model Periodic_spec.
Local Arguments N.leb : simpl never.
Local Arguments N.add : simpl never.

Ltac sf := cbn [period now active pm_locked em_locked im_locked is_set timer clients history set_now set_active set_em set_im set_set set_timer set_client say] in *.

(** ** All cases of a step *)
Ltac splits E :=
  repeat (match type of E with
  | (if ?c then _ else _) = _ => destruct c eqn:?
  | Some (if ?c then _ else _) = _ => destruct c eqn:?
  | Some (set_timer _ (if ?c then _ else _) _) = _ => destruct c eqn:?
  | match timer ?s with _ => _ end = _ => destruct (timer s) eqn:?
  | Some (set_client match timer ?s with _ => _ end _ _) = _ => destruct (timer s) eqn:?
  end; try discriminate E); try discriminate E.

Ltac crack E :=
  let t := fresh "t" in let c := fresh "c" in let b := fresh "b" in
  match type of E with pstep ?s ?l = Some _ => destruct l as [?| | | |b|t c|t]; cbn [pstep] in E end;
  [ idtac
  | splits E
  | splits E
  | match type of E with tstep ?s = Some _ => unfold tstep in E; destruct (timer s) as [| | | |?|?|?| | | | |[]| | |?] eqn:? end; splits E
  | splits E
  | match type of E with match ?x with _ => _ end = _ => let p := fresh "p" in destruct x as [p|] eqn:?; [|discriminate E]; destruct p; try discriminate E; destruct c end
  | match type of E with match ?x with _ => _ end = _ => let p := fresh "p" in destruct x as [p|] eqn:?; [|discriminate E];
      match type of E with cstep ?s ?t ?q = Some _ => destruct p; cbn [cstep] in E end; splits E end ];
  injection E as <-; sf.

Ltac tm := repeat match goal with H : timer ?s = _ |- _ => rewrite H in * end.

(** ** Locks *)
Definition b2n (b : bool) : nat := if b then 1 else 0.
Definition crit (p : cpc) : bool := match p with CIdle | SLock | ULock | ELock | EIn => false | _ => true end.
Definition calling (p : cpc) : bool := match p with EIn => true | _ => false end.
Definition self (p : ppc) : bool := match p with PSelf => true | _ => false end.
Definition in_cb (p : ppc) : bool := match p with PIn | PNest _ | PSelf => true | _ => false end.
Definition holds (p : ppc) : bool := match p with PWait | PTest _ | PBlock _ | PAfter | PWant | PIn | PNest _ | PSelf => true | _ => false end.
Definition alive (p : ppc) : bool := match p with PNone | PEnded => false | _ => true end.

Definition locks (s : pstate) : Prop :=
  number_of (fun p => b2n (crit p)) (clients s) + b2n (self (timer s)) = b2n (em_locked s) /\
  number_of (fun p => b2n (calling p)) (clients s) + b2n (in_cb (timer s)) = b2n (im_locked s) /\
  pm_locked s = holds (timer s).

Ltac numbers :=
  match goal with
  | H : nth_error (clients ?s) ?t = Some _ |- context [upd (clients ?s) ?t ?q] =>
      let G1 := fresh in let G2 := fresh in
      pose proof (number_upd (fun p => b2n (crit p)) _ _ q _ H) as G1; pose proof (number_upd (fun p => b2n (calling p)) _ _ q _ H) as G2;
      cbn [crit calling b2n enter] in G1, G2
  | _ => idtac
  end.

Lemma step_locks s l s' : locks s -> pstep s l = Some s' -> locks s'.
Proof.
  unfold locks. intros (I1 & I2 & I3) E. crack E; tm; numbers; cbn [self in_cb holds b2n enter] in *;
    repeat match goal with H : em_locked s = _ |- _ => rewrite H in * | H : im_locked s = _ |- _ => rewrite H in * | H : pm_locked s = _ |- _ => rewrite H in * end; cbn [b2n] in *;
    destruct (em_locked s), (im_locked s); cbn [b2n] in *; repeat split; try congruence; try lia.
Qed.

(** ** What a thread has done *)
Definition rest (s : pstate) : Prop := is_set s = active s /\ (if active s then alive (timer s) = true else timer s = PNone).
Definition phase (p : cpc) (s : pstate) : Prop :=
  match p with
  | SSet | UClear => rest s
  | SActive => is_set s = true /\ active s = false /\ timer s = PNone
  | SThread => is_set s = true /\ active s = true /\ timer s = PNone
  | SUnlock => rest s /\ is_set s = true
  | UStop => is_set s = false /\ active s = true /\ alive (timer s) = true
  | UNotify => is_set s = false /\ active s = false /\ timer s <> PNone /\ (forall d, timer s <> PBlock d)
  | UJoin => is_set s = false /\ active s = false /\ timer s <> PNone /\ (forall d, timer s <> PBlock d) /\ (forall d, timer s <> PSleep d)
  | UUnlock => rest s /\ is_set s = false
  | _ => True
  end.

Definition phases (s : pstate) : Prop :=
  (em_locked s = false -> rest s) /\
  (forall t p, nth_error (clients s) t = Some p -> phase p s) /\
  (im_locked s = true -> timer s <> PSelf -> is_set s = true).

Lemma crit_alone s t u p q : locks s -> nth_error (clients s) t = Some p -> nth_error (clients s) u = Some q -> crit p = true -> crit q = true -> t = u.
Proof.
  intros (I & _) Hp Hq Cp Cq. destruct (Nat.eq_dec t u) as [E|D]; [exact E|]. pose proof (number_two (fun p => b2n (crit p)) _ _ _ _ _ D Hp Hq) as G. cbn beta in G. rewrite Cp, Cq in G.
  destruct (em_locked s); cbn [b2n] in *; lia.
Qed.
Lemma crit_locked s t p : locks s -> nth_error (clients s) t = Some p -> crit p = true -> em_locked s = true /\ self (timer s) = false.
Proof.
  intros (I & _) Hp Cp. pose proof (number_ge (fun p => b2n (crit p)) _ _ _ Hp) as G. cbn beta in G. rewrite Cp in G.
  destruct (em_locked s), (self (timer s)); cbn [b2n] in *; auto; lia.
Qed.
Lemma free_crit s t p : locks s -> em_locked s = false -> nth_error (clients s) t = Some p -> crit p = false.
Proof. intros L F H. destruct (crit p) eqn:C; [|reflexivity]. destruct (crit_locked _ _ _ L H C). congruence. Qed.
Lemma phase_out p s : crit p = false -> phase p s. Proof. destruct p; try discriminate; intros _; exact I. Qed.

(** the other threads are outside, or nothing they know changes *)
Lemma phases_upd s s' t p q : locks s -> nth_error (clients s) t = Some p -> crit p = true -> clients s' = upd (clients s) t q ->
  (em_locked s' = false -> rest s') -> phase q s' -> (im_locked s' = true -> timer s' <> PSelf -> is_set s' = true) -> phases s'.
Proof.
  intros L Hp Cp Ec R P M. split; [exact R|]. split; [|exact M]. intros u r Hu. rewrite Ec in Hu. apply nth_upd in Hu as [[-> ->]|[D Hu]]; [exact P|].
  apply phase_out. destruct (crit r) eqn:C; [|reflexivity]. exfalso. apply D. exact (crit_alone _ _ _ _ _ L Hu Hp C Cp).
Qed.

Lemma phases_free s s' t q : locks s -> em_locked s = false -> clients s' = upd (clients s) t q ->
  (em_locked s' = false -> rest s') -> phase q s' -> (im_locked s' = true -> timer s' <> PSelf -> is_set s' = true) -> phases s'.
Proof.
  intros L F Ec R P M. split; [exact R|]. split; [|exact M]. intros u r Hu. rewrite Ec in Hu. apply nth_upd in Hu as [[-> ->]|[D Hu]]; [exact P|].
  apply phase_out. exact (free_crit _ _ _ L F Hu).
Qed.

(** steps that change only the period thread *)
Lemma phases_timer s s' : locks s -> phases s -> clients s' = clients s -> em_locked s' = em_locked s -> is_set s' = is_set s -> active s' = active s ->
  alive (timer s') = alive (timer s) \/ (active s = false /\ timer s <> PNone /\ timer s' = PEnded) ->
  (timer s' = PNone <-> timer s = PNone) -> (active s = false -> (forall d, timer s <> PBlock d) -> forall d, timer s' <> PBlock d) ->
  (active s = false -> (forall d, timer s <> PBlock d) -> (forall d, timer s <> PSleep d) -> forall d, timer s' <> PSleep d) ->
  (im_locked s' = true -> timer s' <> PSelf -> is_set s' = true) -> phases s'.
Proof.
  intros L (R & P & M) Ec Ee Es Ea Al N B S M'. unfold phases, rest in *. rewrite Ee, Es, Ea, Ec in *. split; [|split; [|exact M']].
  - intro F. specialize (R F). destruct R as [R1 R2]. split; [exact R1|]. destruct (active s); [|apply N; exact R2]. destruct Al as [->|[Q _]]; [exact R2|discriminate Q].
  - intros t p H. specialize (P t p H). destruct p; cbn [phase] in *; unfold rest in *; rewrite ?Es, ?Ea; try exact P.
    all: repeat match goal with H : _ /\ _ |- _ => destruct H end; repeat split; try assumption; try (apply N; assumption); try (intro X; apply N in X; contradiction).
    all: try (destruct (active s); [destruct Al as [->|[Q _]]; [assumption|discriminate Q]|apply N; assumption]).
    all: try (destruct Al as [->|[Q _]]; [assumption|congruence]).
    all: first [apply B; assumption|apply S; assumption].
Qed.


Lemma im_timer s : locks s -> in_cb (timer s) = true -> im_locked s = true.
Proof. intros (_ & I & _) C. rewrite C in I. destruct (im_locked s); [reflexivity|]. cbn [b2n] in I. lia. Qed.

Ltac by_timer :=
  match goal with L : locks ?s |- _ => apply (phases_timer s) end; sf; auto;
    [ tm; cbn [alive]; auto; right; repeat split; auto; discriminate
    | tm; split; intro; congruence
    | tm; intros; congruence
    | tm; intros; congruence
    | ].

Lemma phases_same s s' t q : phases s -> crit q = false -> clients s' = upd (clients s) t q -> em_locked s' = em_locked s -> is_set s' = is_set s -> active s' = active s -> timer s' = timer s ->
  (im_locked s' = true -> timer s' <> PSelf -> is_set s' = true) -> phases s'.
Proof.
  intros (R & P & M) Cq Ec Ee Es Ea Et M'. unfold phases, rest in *. rewrite Ee, Es, Ea, Et, Ec in *. split; [exact R|split; [|exact M']].
  intros u r Hu. apply nth_upd in Hu as [[-> ->]|[D Hu]]; [apply phase_out; exact Cq|]. specialize (P u r Hu). destruct r; cbn [phase] in *; unfold rest in *; rewrite ?Es, ?Ea, ?Et; exact P.
Qed.

Lemma step_phases s l s' : locks s -> phases s -> pstep s l = Some s' -> phases s'.
Proof.
  intros L P E. crack E; pose proof P as (R & PC & M).
  all: try match goal with H : nth_error (clients _) ?t = Some _, PC : forall t p, _ -> phase p _ |- _ => let F := fresh "F" in pose proof (PC _ _ H) as F; cbn [phase] in F end.
  all: try solve [by_timer; tm; try (intros; match goal with M : _ = true -> _ -> is_set _ = true |- _ => apply M end; [assumption|discriminate]); try (intros; assumption); try (intros; discriminate); try (intros; congruence)].
  all: try match goal with L : locks ?x, Hp : nth_error (clients ?x) ?t = Some ?p |- phases _ => lazymatch eval cbn in (crit p) with true =>
      pose proof (crit_locked _ _ _ L Hp eq_refl) as (? & ?); eapply (phases_upd x); [exact L|exact Hp|reflexivity|reflexivity|..]; sf end end.
  all: try match goal with L : locks ?x, Hp : nth_error (clients ?x) ?t = Some ?p, He : em_locked ?x = false |- phases _ => eapply (phases_free x); [exact L|exact He|reflexivity|..]; sf end.
  all: unfold rest in *; cbn [phase]; unfold rest; sf.
  all: try solve [intuition congruence].
  all: try solve [repeat match goal with H : _ /\ _ |- _ => destruct H end; tm; repeat split; intros; try congruence; auto; discriminate].
  all: try solve [eapply phases_same; [eassumption|reflexivity..|]; sf; auto; intros; congruence].
  all: try solve [repeat match goal with H : _ /\ _ |- _ => destruct H end; repeat match goal with H : _ = active _ |- _ => rewrite <- H in * end; repeat match goal with H : is_set _ = _ |- _ => rewrite H in * end; repeat split; intros; try congruence; auto; intro Z; rewrite Z in *; discriminate].
  - apply (phases_timer s); sf; auto; tm; cbn [alive]; auto; [split; intro; discriminate|intros; discriminate|intros; discriminate].
  - split; sf; [discriminate|]. split; sf; [|intros; congruence]. intros t p H. apply phase_out. eapply free_crit; eassumption.
  - eapply phases_same; [exact P|..]; [|reflexivity..|]; sf; auto; try reflexivity; try discriminate.
  - eapply phases_same; [exact P|..]; [|reflexivity..|]; sf; auto; try reflexivity; try discriminate.
  - eapply phases_same; [exact P|..]; [|reflexivity..|]; sf; auto; try reflexivity; try discriminate.
  - destruct F as [F1 F2]. rewrite <- F1 in F2. rewrite Heqb0 in *. auto.
  - destruct F as (F1 & F2 & _). rewrite F1, F2. auto.
  - destruct F as [F1 F2]. rewrite <- F1 in F2. rewrite Heqb in *. auto.
  - destruct F as (F1 & F2 & F3). destruct L as (_ & _ & L3). split; [exact F1|]. split; [reflexivity|]. split; [intro T; rewrite T in F3; discriminate F3|]. intros d T. rewrite T in L3. cbn in L3. congruence.
  - destruct F as (F1 & F2 & _). rewrite F1, F2. auto.
  - eapply phases_same; [exact P|..]; [|reflexivity..|]; sf; auto; try reflexivity; try discriminate.
  - eapply phases_same; [exact P|..]; [|reflexivity..|]; sf; auto; try reflexivity; try discriminate.
  - eapply phases_same; [exact P|..]; [|reflexivity..|]; sf; auto; try reflexivity; try discriminate; intros; discriminate.
Qed.

(** ** Both invariants *)
Lemma reach_inv allowed k n s : preachable allowed k n s -> locks s /\ phases s.
Proof.
  induction 1 as [|s l s' H [IL IP] A E].
  - split.
    + unfold locks, pinit; sf. rewrite !number_repeat by reflexivity. cbn. auto.
    + unfold phases, rest, pinit; sf. repeat split; try discriminate. intros t p Ht. assert (p = CIdle) as -> by (eapply nth_all; exact Ht). exact Logic.I.
  - split; [exact (step_locks _ _ _ IL E)|exact (step_phases _ _ _ IL IP E)].
Qed.

(** ** One thread, and no callback once unset *)
Definition setting (s : pstate) : Prop := last_set (history s) = false -> is_set s = false /\ timer s = PNone.

Ltac know :=
  match goal with H : nth_error (clients ?s) ?t = Some _, P : phases ?s |- _ => let F := fresh "F" in pose proof (proj1 (proj2 P) _ _ H) as F; cbn [phase] in F end.

Lemma step_setting s l s' : locks s -> phases s -> setting s -> pstep s l = Some s' -> setting s'.
Proof.
  unfold setting. intros L P I E. crack E; cbn [last_set]; try know; try discriminate; try exact I; intro Q.
  all: try (destruct (I Q) as [? T]; try congruence).
  all: try (split; try assumption; congruence).
  all: try (destruct F as (F1 & F2); congruence).
  - destruct F as ((F1 & F2) & F3). rewrite F3 in F1. rewrite <- F1 in F2. auto.
Qed.

Lemma reach_setting allowed k n s : preachable allowed k n s -> setting s.
Proof.
  induction 1 as [|s l s' H IH A E]; [intros _; auto|]. destruct (reach_inv _ _ _ _ H) as [L P]. exact (step_setting _ _ _ L P IH E).
Qed.

Lemma one_thread_lemma allowed k n s : preachable allowed k n s -> ~ In VTerminate (history s).
Proof.
  induction 1 as [|s l s' H IH A E]; [intros []|]. destruct (reach_inv _ _ _ _ H) as [L P].
  crack E; cbn [In]; try exact IH; try (intros [Q|Q]; [discriminate Q|exact (IH Q)]); know; destruct F as (F1 & F2 & F3); try congruence.
  destruct F3; congruence.
Qed.

Lemma not_running s : locks s -> phases s -> is_set s = false -> timer s = PNone -> ~ running s.
Proof.
  intros (_ & L & _) (_ & _ & M) S T R. assert (im_locked s = true) as I.
  - destruct R as [R|[t R]]; [rewrite T in R; destruct R|]. pose proof (number_ge (fun p => b2n (calling p)) _ _ _ R) as G. cbn in G. destruct (im_locked s); [reflexivity|]. cbn [b2n] in L. lia.
  - rewrite (M I) in S by (rewrite T; discriminate). discriminate S.
Qed.

Lemma unset_lemma allowed k n s : preachable allowed k n s -> last_set (history s) = false -> ~ running s /\ timer s = PNone.
Proof.
  intros H Q. destruct (reach_setting _ _ _ _ H Q) as [S T]. destruct (reach_inv _ _ _ _ H) as [L P]. split; [|exact T]. exact (not_running s L P S T).
Qed.

Lemma moment_step s s' (e : pevent) older : (history s' = history s \/ exists x, history s' = x :: history s) -> moment s' e older ->
  moment s e older \/ (history s' = e :: history s /\ older = history s).
Proof.
  intros H (nw & M). destruct H as [H|[x H]]; rewrite H in M.
  - left. exists nw. exact M.
  - destruct nw as [|y nw]; cbn in M; injection M as M1 M2.
    + right. subst. auto.
    + left. exists nw. exact M2.
Qed.
Lemma step_history s l s' : pstep s l = Some s' -> history s' = history s \/ exists x, history s' = x :: history s.
Proof. intro E. crack E; eauto. Qed.

Lemma only_set_lemma allowed k n s e older : preachable allowed k n s -> moment s e older -> a_call e -> last_set older = true.
Proof.
  intros H M C. induction H as [|s l s' H IH A E]; [destruct M as ([|x nw] & M); discriminate M|].
  destruct (moment_step _ _ _ _ (step_history _ _ _ E) M) as [M'|[Eh ->]]; [exact (IH M')|].
  pose proof (reach_setting _ _ _ _ H) as I. unfold setting in I. destruct (last_set (history s)); [reflexivity|]. destruct (I eq_refl) as [S T]. exfalso.
  clear I M. crack E; try congruence; try (injection Eh as <-; cbn in C; exact C); try (apply (f_equal (@List.length pevent)) in Eh; cbn [List.length] in Eh; lia).
Qed.

(** ** Progress *)
Lemma quiet_timer k n s : preachable quiet k n s -> forall b, timer s <> PNest b /\ timer s <> PSelf.
Proof.
  induction 1 as [|s l s' H IH A E]; intro b; [split; discriminate|]. pose proof (IH true) as [IH1 IH2]. pose proof (IH false) as [IH3 _]. specialize (IH b) as [IH4 _].
  crack E; cbn [quiet] in A; try contradiction; split; try discriminate; try assumption; try congruence.
Qed.

Lemma timer_runs s : locks s -> phases s -> im_locked s = false \/ timer s = PIn -> timer s <> PNone -> timer s <> PEnded -> (forall d, timer s <> PSleep d) -> (forall b, timer s <> PNest b /\ timer s <> PSelf) ->
  exists s', pstep s Timer = Some s'.
Proof.
  intros (_ & _ & L) P I N1 N2 N3 N4. cbn [pstep]. unfold tstep. destruct (timer s) eqn:T; cbn [holds] in L; try rewrite L; eauto; try congruence.
  - destruct I as [->|Q]; [|discriminate Q]. destruct (is_set s); eauto.
  - exfalso. eapply (proj1 (N4 b)). reflexivity.
  - exfalso. eapply (proj2 (N4 true)). reflexivity.
Qed.

Lemma holds_runs s : locks s -> phases s -> im_locked s = false -> (forall b, timer s <> PNest b /\ timer s <> PSelf) -> pm_locked s = true -> exists s', pstep s Timer = Some s'.
Proof.
  intros L P I N Q. destruct L as (L1 & L2 & L3). rewrite L3 in Q. apply timer_runs; try assumption; [repeat split; assumption|auto|..]; intro; try (intro X; rewrite X in Q; discriminate Q).
  rewrite H in Q. discriminate Q. rewrite H in Q. discriminate Q.
Qed.

Lemma number_pos {A} (f : A -> nat) l : 0 < number_of f l -> exists i x, nth_error l i = Some x /\ 0 < f x.
Proof.
  induction l as [|a l IH]; unfold number_of in *; cbn; intro H; [lia|]. destruct (f a) eqn:Fa.
  - destruct IH as (i & x & Hx & Fx); [lia|]. exists (Datatypes.S i), x. auto.
  - exists 0, a. split; [reflexivity|lia].
Qed.
Lemma has_crit s : locks s -> em_locked s = true -> timer s <> PSelf -> exists t p, nth_error (clients s) t = Some p /\ crit p = true.
Proof.
  intros (L & _) E N. rewrite E in L. assert (self (timer s) = false) as F by (destruct (timer s); try reflexivity; congruence). rewrite F in L. cbn [b2n] in L.
  destruct (number_pos (fun p => b2n (crit p)) (clients s)) as (t & p & H & C); [lia|]. exists t, p. split; [exact H|]. destruct (crit p); [reflexivity|]. cbn in C. lia.
Qed.
Lemma has_calling s : locks s -> im_locked s = true -> in_cb (timer s) = false -> exists t, nth_error (clients s) t = Some EIn.
Proof.
  intros (_ & L & _) E F. rewrite E, F in L. cbn [b2n] in L.
  destruct (number_pos (fun p => b2n (calling p)) (clients s)) as (t & p & H & C); [lia|]. exists t. destruct p; cbn in C; try lia. exact H.
Qed.

Lemma progress_lemma k n s t p : preachable quiet k n s -> nth_error (clients s) t = Some p -> inside p -> exists l s', own_step l /\ pstep s l = Some s'.
Proof.
  intros R Ht Hi. destruct (reach_inv _ _ _ _ R) as [L P]. pose proof (quiet_timer _ _ _ R) as Q.
  destruct (in_cb (timer s)) eqn:C.
  { exists Timer. destruct (timer_runs s L P) as [s' E]; try (intro X; rewrite X in C; discriminate C); try exact Q; [|intros d X; rewrite X in C; discriminate C|exists s'; split; [exact Logic.I|exact E]].
    right. destruct (timer s) as [| | | | | | | | | | |b| | |d'] eqn:T; try discriminate C; [reflexivity|..]; exfalso; [exact (proj1 (Q b) eq_refl)|exact (proj2 (Q true) eq_refl)]. }
  destruct (im_locked s) eqn:Im.
  { destruct (has_calling _ L Im C) as [u Hu]. exists (Run u). cbn [pstep]. rewrite Hu. cbn [cstep]. eexists. split; [exact Logic.I|reflexivity]. }
  destruct (em_locked s) eqn:Em.
  - destruct (has_crit _ L Em (proj2 (Q true))) as (u & q & Hu & Cq). pose proof (proj1 (proj2 P) _ _ Hu) as F.
    assert (pm_locked s = true -> exists l s', own_step l /\ pstep s l = Some s') as W by (intro Y; destruct (holds_runs s L P Im Q Y) as [s' E]; exists Timer, s'; split; [exact Logic.I|exact E]).
    destruct (pm_locked s) eqn:Pm; [exact (W eq_refl)|clear W].
    destruct q; try discriminate Cq; cbn [phase] in F;
      try solve [exists (Run u); cbn [pstep]; rewrite Hu; cbn [cstep]; rewrite ?Em, ?Im, ?Pm; try destruct (is_set s); try destruct (timer s); eexists; (split; [exact Logic.I|reflexivity])].
    destruct F as (F1 & F2 & F3 & F5 & F4).
    destruct (timer s) eqn:T; try congruence;
      try solve [exists Timer; cbn [pstep]; unfold tstep; rewrite T, ?Im, ?Pm, ?F1; eexists; (split; [exact Logic.I|reflexivity])].
    + discriminate C.
    + discriminate C.
    + exists (Run u). cbn [pstep]. rewrite Hu. cbn [cstep]. rewrite T. eexists. split; [exact Logic.I|reflexivity].
  - pose proof (free_crit _ _ _ L Em Ht) as Cp. exists (Run t). cbn [pstep]. rewrite Ht.
    destruct p; try discriminate Cp; cbn [cstep]; rewrite ?Em, ?Im; try destruct (is_set s); try (eexists; (split; [exact Logic.I|reflexivity])).
    all: destruct Hi; reflexivity.
Qed.

(** ** unset_callback returns *)
Definition left_steps (p : ppc) : nat :=
  match p with PEnded => 0 | PBlock _ => 0 | PLoop => 1 | PAfter => 1 | PIn => 2 | PTimed => 2 | PTest _ => 2 | PWant => 2 | PWait => 3 | PWake _ => 3 | PLock => 4 | _ => 0 end.

Lemma reach_steps allowed k n s ls : preachable allowed k n s -> Forall allowed ls -> forall s', psteps s ls = Some s' -> preachable allowed k n s'.
Proof.
  intros R F. revert s R. induction F as [|l ls A F IH]; intros s R s' E; cbn [psteps] in E; [injection E as <-; exact R|].
  destruct (pstep s l) as [s1|] eqn:E1; [|discriminate E]. exact (IH s1 (pr_step _ _ _ _ _ _ R A E1) s' E).
Qed.

Lemma unset_ends k n s t : preachable quiet k n s -> nth_error (clients s) t = Some UJoin ->
  exists m s', m <= 4 /\ psteps s (repeat Timer m ++ [Run t; Run t]) = Some s' /\ history s' = VUnset t :: history s.
Proof.
  intros R Ht. remember (left_steps (timer s)) as v eqn:Ev. assert (v <= 4) as Lv by (subst v; destruct (timer s); cbn; lia).
  enough (exists s', psteps s (repeat Timer v ++ [Run t; Run t]) = Some s' /\ history s' = VUnset t :: history s) as (s' & A & B) by eauto. clear Lv.
  revert s R Ht Ev. induction v as [|v IH]; intros s R Ht Ev.
  - destruct (reach_inv _ _ _ _ R) as [L P]. pose proof (proj1 (proj2 P) _ _ Ht) as (F1 & F2 & F3 & F5 & F4). pose proof (quiet_timer _ _ _ R) as Q.
    assert (timer s = PEnded) as T by (destruct (timer s) as [| | | | |d| | | | | |b| | |d'] eqn:T; try discriminate Ev; [congruence|exfalso; exact (F4 d eq_refl)|exfalso; exact (proj1 (Q b) eq_refl)|exfalso; exact (proj2 (Q true) eq_refl)|reflexivity|exfalso; exact (F5 d' eq_refl)]).
    cbn [repeat app psteps pstep]. rewrite Ht. cbn [cstep]. rewrite T. sf. rewrite (nth_upd_same _ _ _ _ Ht). cbn [cstep]. eexists. split; [reflexivity|]. reflexivity.
  - destruct (reach_inv _ _ _ _ R) as [L P]. pose proof (proj1 (proj2 P) _ _ Ht) as (F1 & F2 & F3 & F5 & F4).
    assert (exists s', pstep s Timer = Some s' /\ clients s' = clients s /\ history s' = history s /\ left_steps (timer s') = v) as (s' & E & Ec & Eh & El).
    { pose proof (proj2 (proj2 L)) as L3. pose proof (proj2 (proj2 P)) as M. pose proof (im_timer s L) as Ci. cbn [pstep]. unfold tstep.
      destruct (timer s) eqn:T; try discriminate Ev; cbn [left_steps] in Ev; cbn [holds] in L3; rewrite ?L3, ?F2, ?F1;
        try solve [eexists; repeat split; sf; cbn [left_steps]; lia].
      - destruct (im_locked s); [exfalso; rewrite M in F1; try reflexivity; discriminate|]. eexists; repeat split; sf; cbn [left_steps]; lia.
      - exfalso. rewrite M in F1; [discriminate F1|apply Ci; reflexivity|discriminate]. }
    destruct (IH s' (pr_step quiet k n s Timer s' R Logic.I E)) as (s2 & E2 & Eh2); [rewrite Ec; exact Ht|auto|].
    exists s2. split; [|rewrite Eh2, Eh; reflexivity]. cbn [repeat app psteps]. rewrite E. exact E2.
Qed.

(** ** Spacing *)
Definition timing (s : pstate) : Prop :=
  match timer s with
  | PLoop | PLock | PWait => exists a, last_mark (history s) = Some a /\ (a <= now s)%N
  | PTest d | PBlock d | PSleep d | PWake d => exists a, last_mark (history s) = Some a /\ (a <= now s /\ a + period s <= d)%N
  | PTimed | PWant => exists a, last_mark (history s) = Some a /\ (a + period s <= now s)%N
  | PAfter => exists a, last_mark (history s) = Some a /\ (a <= now s)%N /\ ((a + period s <= now s)%N \/ active s = false)
  | _ => True
  end.

Ltac num := repeat match goal with H : exists a, _ |- _ => destruct H as (? & ? & ?) end;
  try match goal with |- exists a, _ => eexists; split; [cbn [last_mark]; first [eassumption|reflexivity]|] end; try lia.

Lemma step_timing s l s' : locks s -> phases s -> timing s -> pstep s l = Some s' -> timing s'.
Proof.
  unfold timing. intros L P I E. crack E; tm; try know; try exact Logic.I; try exact I; cbn [last_mark].
  all: try (num; fail).
  all: try match goal with |- match timer ?x with _ => _ end => destruct (timer x) eqn:?; try exact Logic.I; try exact I; num end.
  - destruct F as (_ & _ & F). discriminate F.
Qed.

Lemma step_period s l s' : pstep s l = Some s' -> period s' = period s.
Proof. intro E. crack E; reflexivity. Qed.

Lemma reach_timing allowed k n s : preachable allowed k n s -> timing s /\ period s = k.
Proof.
  induction 1 as [|s l s' H [IH1 IH2] A E]; [split; [exact Logic.I|reflexivity]|]. destruct (reach_inv _ _ _ _ H) as [L P]. split.
  - exact (step_timing _ _ _ L P IH1 E).
  - rewrite (step_period _ _ _ E). exact IH2.
Qed.

Lemma called_step s l s' b : pstep s l = Some s' -> history s' = VCalled b :: history s -> timer s = PWant /\ b = now s /\ is_set s = true.
Proof.
  intros E Eh. crack E; try (injection Eh as <-); try discriminate Eh; try (apply (f_equal (@List.length pevent)) in Eh; cbn [List.length] in Eh; lia). auto.
Qed.

Lemma spacing_lemma allowed k n s b older : preachable allowed k n s -> moment s (VCalled b) older -> exists a, last_mark older = Some a /\ (a + k <= b)%N.
Proof.
  intros H M. induction H as [|s l s' H IH A E]; [destruct M as ([|x nw] & M); discriminate M|].
  destruct (moment_step _ _ _ _ (step_history _ _ _ E) M) as [M'|[Eh ->]]; [exact (IH M')|].
  destruct (called_step _ _ _ _ E Eh) as (T & -> & _). destruct (reach_timing _ _ _ _ H) as [I Ep]. unfold timing in I. rewrite T, Ep in I. exact I.
Qed.

(** ** Without delays *)
Definition exact_timing (s : pstate) : Prop := is_set s = true ->
  match timer s with
  | PLoop | PLock | PWait => last_mark (history s) = Some (now s)
  | PTest d | PBlock d | PSleep d | PWake d => exists a, last_mark (history s) = Some a /\ (a + period s = d /\ now s <= d)%N
  | PTimed | PWant => exists a, last_mark (history s) = Some a /\ (a + period s = now s)%N
  | PAfter => active s = false \/ exists a, last_mark (history s) = Some a /\ (a + period s = now s)%N
  | _ => True
  end.

Lemma punctual_reachable k n s : punctual k n s -> preachable quiet k n s.
Proof. induction 1 as [|s l s' H IH A E]; [constructor|]. econstructor; [exact IH| |exact E]. destruct l; try exact Logic.I. exact A. Qed.

Lemma step_exact s l s' : locks s -> phases s -> exact_timing s -> prompt s l -> pstep s l = Some s' -> exact_timing s'.
Proof.
  intros L P I A E. crack E; unfold exact_timing in *; sf; tm; cbn [prompt] in A; tm; try contradiction; try know; intro Z; try discriminate Z; try specialize (I Z); try exact Logic.I; try exact I; cbn [last_mark]; auto; try congruence.
  all: try (num; fail).
  all: try solve [match goal with F : rest ?x, H : is_set ?x = false |- _ => destruct F as [F1 F2]; rewrite <- F1, H in F2; rewrite F2; exact Logic.I end].
  all: try solve [destruct F as (_ & _ & F); rewrite F; exact Logic.I].
  all: try match goal with |- match timer ?x with _ => _ end => destruct (timer x) eqn:?; try exact Logic.I; try exact I; num end.
  - destruct I as [I|I]; [congruence|exact I].
Qed.

Lemma punctual_exact k n s : punctual k n s -> exact_timing s.
Proof.
  induction 1 as [|s l s' H IH A E]; [intro; exact Logic.I|]. destruct (reach_inv _ _ _ _ (punctual_reachable _ _ _ H)) as [L P]. exact (step_exact _ _ _ L P IH A E).
Qed.

Lemma punctual_lemma k n s b older : punctual k n s -> moment s (VCalled b) older -> exists a, last_mark older = Some a /\ b = (a + k)%N.
Proof.
  intros H M. induction H as [|s l s' H IH A E]; [destruct M as ([|x nw] & M); discriminate M|].
  destruct (moment_step _ _ _ _ (step_history _ _ _ E) M) as [M'|[Eh ->]]; [exact (IH M')|].
  destruct (called_step _ _ _ _ E Eh) as (T & -> & Z). destruct (reach_timing _ _ _ _ (punctual_reachable _ _ _ H)) as [_ Ep]. pose proof (punctual_exact _ _ _ H Z) as I. rewrite T, Ep in I. destruct I as (a & I1 & I2). exists a. auto.
Qed.

(** ** Stuck *)
Lemma stuck_inv (I : pstate -> Prop) s : I s -> (forall s l s', I s -> pstep s l = Some s' -> I s' /\ history s' = history s) -> stuck s.
Proof.
  intros H0 Hs ls. revert s H0. induction ls as [|l ls IH]; intros s H s' E; cbn [psteps] in E; [injection E as <-; reflexivity|].
  destruct (pstep s l) as [s1|] eqn:E1; [|discriminate E]. destruct (Hs _ _ _ H E1) as [H1 H2]. rewrite <- H2. exact (IH s1 H1 s' E).
Qed.

Lemma self_stuck allowed k n s : preachable allowed k n s -> timer s = PSelf -> stuck s.
Proof.
  intros R T. destruct (reach_inv _ _ _ _ R) as [L _].
  apply (stuck_inv (fun s => locks s /\ timer s = PSelf)); [auto|]. clear. intros s l s' [L T] E. split; [split; [exact (step_locks _ _ _ L E)|]|].
  - assert (em_locked s = true /\ im_locked s = true) as [Em Im].
    { destruct L as (L1 & L2 & _). rewrite T in L1, L2. cbn in L1, L2. destruct (em_locked s), (im_locked s); cbn [b2n] in *; auto; lia. }
    crack E; try congruence.
    all: match goal with H : nth_error (clients _) _ = Some _ |- _ => destruct (crit_locked _ _ _ L H eq_refl) as [_ Z]; first [rewrite T in Z|tm]; discriminate Z end.
  - assert (em_locked s = true /\ im_locked s = true) as [Em Im].
    { destruct L as (L1 & L2 & _). rewrite T in L1, L2. cbn in L1, L2. destruct (em_locked s), (im_locked s); cbn [b2n] in *; auto; lia. }
    crack E; try congruence; try reflexivity.
    all: match goal with H : nth_error (clients _) _ = Some _ |- _ => destruct (crit_locked _ _ _ L H eq_refl) as [_ Z]; first [rewrite T in Z|tm]; discriminate Z end.
Qed.

(** the callback waits for a thread that waits for the callback *)
Definition crossed (t : nat) (s : pstate) : Prop := locks s /\ phases s /\ (exists b, timer s = PNest b) /\ (nth_error (clients s) t = Some SSet \/ nth_error (clients s) t = Some UClear).

Lemma crossed_step t s l s' : crossed t s -> pstep s l = Some s' -> crossed t s' /\ history s' = history s.
Proof.
  intros (L & P & [b T] & C) E. assert (im_locked s = true) as Im by (apply im_timer; [exact L|rewrite T; reflexivity]).
  assert (em_locked s = true) as Em by (destruct C as [C|C]; exact (proj1 (crit_locked _ _ _ L C eq_refl))).
  assert (is_set s = true) as Is by (apply (proj2 (proj2 P)); [exact Im|rewrite T; discriminate]).
  pose proof (step_locks _ _ _ L E) as L'. pose proof (step_phases _ _ _ L P E) as P'.
  assert (forall u p, nth_error (clients s) u = Some p -> crit p = true -> u = t /\ (p = SSet \/ p = UClear)) as A.
  { intros u p Hu Cp. destruct C as [C|C]; assert (u = t) as -> by (eapply crit_alone; [exact L|exact Hu|exact C|exact Cp|reflexivity]); rewrite C in Hu; injection Hu as <-; auto. }
  assert ((exists b, timer s' = PNest b) /\ (nth_error (clients s') t = Some SSet \/ nth_error (clients s') t = Some UClear) /\ history s' = history s) as (G1 & G2 & G3).
  { clear L' P'. crack E; try congruence; try (match goal with H : nth_error (clients s) _ = Some _ |- _ => destruct (A _ _ H eq_refl) as [-> [Z|Z]]; discriminate Z end).
    - eauto.
    - assert (t <> t0) by (intros ->; destruct C; congruence). rewrite !nth_upd_other by auto. eauto.
    - assert (t <> t0) by (intros ->; destruct C; congruence). rewrite !nth_upd_other by auto. eauto.
    - assert (t <> t0) by (intros ->; destruct C; congruence). rewrite !nth_upd_other by auto. eauto.
    - exfalso. destruct L as (_ & L2 & _). rewrite T, Im in L2. cbn [in_cb b2n] in L2. pose proof (number_ge (fun p => b2n (calling p)) _ _ _ Heqo) as G. cbn in G. lia. }
  split; [|exact G3]. exact (conj L' (conj P' (conj G1 G2))).
Qed.

Lemma crossed_stuck allowed k n s b t : preachable allowed k n s -> timer s = PNest b -> nth_error (clients s) t = Some SSet \/ nth_error (clients s) t = Some UClear -> stuck s.
Proof.
  intros R T C. destruct (reach_inv _ _ _ _ R) as [L P]. apply (stuck_inv (crossed t)); [|apply crossed_step]. unfold crossed. eauto.
Qed.

(** ** Once set, the callback is called *)
Definition knows (p : cpc) : bool := match p with SSet | SActive | SThread | SUnlock | UClear => true | _ => false end.
Definition agrees (s : pstate) : Prop := is_set s = last_set (history s).
Definition agreed (s : pstate) : Prop := (em_locked s = false -> agrees s) /\ forall t p, nth_error (clients s) t = Some p -> knows p = true -> agrees s.

Lemma knows_crit p : knows p = true -> crit p = true. Proof. destruct p; try discriminate; reflexivity. Qed.

Lemma agreed_same s s' : agreed s -> clients s' = clients s -> em_locked s' = em_locked s -> is_set s' = is_set s -> last_set (history s') = last_set (history s) -> agreed s'.
Proof. intros [A B] Ec Ee Es El. unfold agreed, agrees in *. rewrite Ec, Ee, Es, El. auto. Qed.

Lemma agreed_crit s s' t p q : locks s -> nth_error (clients s) t = Some p -> crit p = true -> clients s' = upd (clients s) t q -> (em_locked s' = false -> agrees s') -> (knows q = true -> agrees s') -> agreed s'.
Proof.
  intros L Hp Cp Ec A B. split; [exact A|]. intros u r Hu K. rewrite Ec in Hu. apply nth_upd in Hu as [[-> ->]|[D Hu]]; [exact (B K)|].
  exfalso. apply D. exact (crit_alone _ _ _ _ _ L Hu Hp (knows_crit _ K) Cp).
Qed.

Lemma agreed_out s s' t q : agreed s -> knows q = false -> clients s' = upd (clients s) t q -> em_locked s' = em_locked s -> is_set s' = is_set s -> last_set (history s') = last_set (history s) -> agreed s'.
Proof.
  intros [A B] Kq Ec Ee Es El. unfold agreed, agrees in *. rewrite Ee, Es, El, Ec. split; [exact A|]. intros u r Hu K. apply nth_upd in Hu as [[-> ->]|[D Hu]]; [congruence|]. exact (B u r Hu K).
Qed.

Lemma agreed_free s s' t q : locks s -> agreed s -> em_locked s = false -> clients s' = upd (clients s) t q -> em_locked s' = true -> is_set s' = is_set s -> last_set (history s') = last_set (history s) -> agreed s'.
Proof.
  intros L [A B] Fe Ec Ee Es El. unfold agreed, agrees in *. rewrite Ee, Es, El, Ec. split; [discriminate|]. intros u r Hu K. apply nth_upd in Hu as [[-> ->]|[D Hu]]; [exact (A Fe)|]. exact (B u r Hu K).
Qed.

Lemma step_agreed s l s' : locks s -> phases s -> agreed s -> quiet l -> pstep s l = Some s' -> (forall b, timer s <> PNest b) -> agreed s'.
Proof.
  intros L P A Q E N. crack E; cbn [quiet] in Q; try contradiction; try (exfalso; eapply N; first [eassumption|reflexivity]).
  all: try solve [eapply agreed_same; [exact A|reflexivity..]].
  all: try solve [match goal with Hp : nth_error (clients _) _ = Some ?p |- _ => eapply agreed_out; [exact A|reflexivity|reflexivity..] end].
  all: try solve [eapply agreed_out with (t := t); [exact A| |reflexivity..]; reflexivity].
  all: try solve [eapply agreed_free; [exact L|exact A|assumption|reflexivity..]].
  all: match goal with L : locks ?x, A : agreed ?x, Hp : nth_error (clients ?x) ?t = Some ?p |- _ => pose proof (crit_locked _ _ _ L Hp eq_refl) as [? _]; let K := fresh "K" in pose proof (proj2 A _ _ Hp) as K; cbn [knows] in K end.
  all: know; eapply agreed_crit; [exact L|eassumption|reflexivity|reflexivity|..]; sf; unfold agrees in *; sf; cbn [last_set knows]; intros; auto; try congruence.
  exact (proj2 F).
Qed.

Lemma reach_agreed k n s : preachable quiet k n s -> agreed s.
Proof.
  induction 1 as [|s l s' H IH A E].
  - split; [reflexivity|]. intros t p H K. unfold pinit in H; sf. assert (p = CIdle) as -> by (eapply nth_all; exact H). discriminate K.
  - destruct (reach_inv _ _ _ _ H) as [L P]. eapply step_agreed; try eassumption. intro b. exact (proj1 (quiet_timer _ _ _ H b)).
Qed.

Lemma leb_wait a b : N.leb a (b + (a - b)) = true. Proof. lia. Qed.

Ltac go := lazy -[N.leb N.add N.sub]; rewrite ?leb_wait, ?N.leb_refl; lazy -[N.leb N.add N.sub].

Lemma comes_lemma k n s : preachable quiet k n s -> (forall t p, nth_error (clients s) t = Some p -> p = CIdle) -> last_set (history s) = true ->
  exists ls s' b h, Forall by_itself ls /\ psteps s ls = Some s' /\ history s' = VCalled b :: h.
Proof.
  intros R C S. destruct (reach_inv _ _ _ _ R) as [L P]. pose proof (quiet_timer _ _ _ R) as Q. destruct (reach_agreed _ _ _ R) as [A _].
  assert (em_locked s = false) as Em.
  { destruct (em_locked s) eqn:Em; [|reflexivity]. destruct (has_crit _ L Em (proj2 (Q true))) as (t & p & H & K). rewrite (C _ _ H) in K. discriminate K. }
  specialize (A Em). unfold agrees in A. rewrite S in A. destruct (proj1 P Em) as [Ra Rt]. rewrite <- Ra, A in Rt. rewrite A in Ra. symmetry in Ra.
  assert (in_cb (timer s) = false -> im_locked s = false) as Im.
  { intro I. destruct (im_locked s) eqn:Im; [|reflexivity]. destruct (has_calling _ L Im I) as [t H]. discriminate (C _ _ H). }
  pose proof (proj2 (proj2 L)) as Pm. clear L P R C S Em.
  destruct s as [per nw act pm em im iset tm cl h]. sf. subst act iset pm.
  set (first := [Timer; Timer; Timer; Timer; Timer; Tick per; Timeout; Timer; Timer; Timer]).
  destruct tm as [| | | |d|d|d| | | | |b| | |d]; try discriminate Rt; cbn [holds in_cb] in *; try specialize (Im eq_refl); try subst im.
  - exists first. unfold first. do 3 eexists. split; [repeat (apply Forall_cons; [exact Logic.I|]); apply Forall_nil|]. go. split; reflexivity.
  - exists (List.tl first). unfold first. do 3 eexists. split; [repeat (apply Forall_cons; [exact Logic.I|]); apply Forall_nil|]. cbn [List.tl]. go. split; reflexivity.
  - exists [Timer; Timer; Timer; Tick per; Timeout; Timer; Timer; Timer]. do 3 eexists. split; [repeat (apply Forall_cons; [exact Logic.I|]); apply Forall_nil|]. go. split; reflexivity.
  - exists [Timer; Timer; Tick (d - nw); Timeout; Timer; Timer; Timer]. do 3 eexists. split; [repeat (apply Forall_cons; [exact Logic.I|]); apply Forall_nil|]. go. split; reflexivity.
  - exists [Tick (d - nw); Timeout; Timer; Timer; Timer]. do 3 eexists. split; [repeat (apply Forall_cons; [exact Logic.I|]); apply Forall_nil|]. go. split; reflexivity.
  - exists [Timer; Timer; Timer; Tick (d - nw); Timeout; Timer; Timer; Timer]. do 3 eexists. split; [repeat (apply Forall_cons; [exact Logic.I|]); apply Forall_nil|]. go. split; reflexivity.
  - exists [Timer; Timer; Timer]. do 3 eexists. split; [repeat (apply Forall_cons; [exact Logic.I|]); apply Forall_nil|]. go. split; reflexivity.
  - exists [Timer; Timer]. do 3 eexists. split; [repeat (apply Forall_cons; [exact Logic.I|]); apply Forall_nil|]. go. split; reflexivity.
  - exists [Timer]. do 3 eexists. split; [repeat (apply Forall_cons; [exact Logic.I|]); apply Forall_nil|]. go. split; reflexivity.
  - exists (Timer :: first). unfold first. do 3 eexists. split; [repeat (apply Forall_cons; [exact Logic.I|]); apply Forall_nil|]. go. split; reflexivity.
  - exfalso. exact (proj1 (Q b) eq_refl).
  - exfalso. exact (proj2 (Q true) eq_refl).
  - exists [Timer; Tick (d - nw); Timeout; Timer; Timer; Timer]. do 3 eexists. split; [repeat (apply Forall_cons; [exact Logic.I|]); apply Forall_nil|]. go. split; reflexivity.
Qed.

Lemma set_alone_lemma allowed k n s : preachable allowed k n s -> timer s = PNest true -> (forall t p, nth_error (clients s) t = Some p -> p = CIdle) ->
  exists s', pstep s Timer = Some s' /\ timer s' = PIn.
Proof.
  intros R T C. destruct (reach_inv _ _ _ _ R) as [L _]. cbn [pstep]. unfold tstep. rewrite T.
  destruct (em_locked s) eqn:Em; [|eexists; split; reflexivity].
  destruct (has_crit s L Em) as (t & p & H & K); [rewrite T; discriminate|]. rewrite (C _ _ H) in K. discriminate K.
Qed.
