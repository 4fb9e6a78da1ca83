(** Proofs about file watcher event handlers. *)
From Coq Require Import ZifyBool ZifyNat.
From Verif Require Import Watcher_model Watcher_spec.
Local Arguments Nat.ltb : simpl never.
Local Arguments Nat.leb : simpl never.

Ltac sf := cbn [destroyed watch kqueue cm_locked info watching calling em_locked im_locked is_set started clients history set_destroyed set_kernel set_info set_watching set_calling set_em set_im set_set set_started set_client say new_watcher no_watcher] in *.

(** ** All cases of a step *)
Lemma notify_cases s : (notify s = s /\ calling s <> DSleep) \/ (calling s = DSleep /\ notify s = set_calling s DWake (cm_locked s)).
Proof. unfold notify. destruct (calling s); auto; left; split; auto; discriminate. Qed.
Lemma remove_cases s : (remove_watch s = s /\ watch s = false) \/ (watch s = true /\ remove_watch s = set_kernel s false (kqueue s ++ [KIgnored])).
Proof. unfold remove_watch. destruct (watch s); auto. Qed.

Ltac splits E :=
  repeat (match type of E with
  | (if ?c then _ else _) = _ => destruct c eqn:?
  | Some (if ?c then _ else _) = _ => destruct c eqn:?
  | Some (set_watching _ (if ?c then _ else _)) = _ => destruct c eqn:?
  | Some (set_calling _ (if ?c then _ else _) _) = _ => destruct c eqn:?
  | Some (set_client (set_started (if ?c then _ else _) _) _ _) = _ => destruct c eqn:?
  | Some (set_calling _ (match info ?s with _ => _ end) _) = _ => destruct (info s) eqn:?
  | match watching ?s with _ => _ end = _ => destruct (watching s) eqn:?
  | match calling ?s with _ => _ end = _ => destruct (calling s) eqn:?
  | context [notify ?s] => let N := fresh in let N1 := fresh in destruct (notify_cases s) as [[N N1]|[N1 N]]; rewrite N in E; clear N
  | context [remove_watch ?s] => let N := fresh in let N1 := fresh in destruct (remove_cases s) as [[N N1]|[N1 N]]; rewrite N in E; clear N
  end; try discriminate E); try discriminate E.

Ltac crack E :=
  let t := fresh "t" in let c := fresh "c" in let b := fresh "b" in let k := fresh "k" in let ok := fresh "ok" in let m := fresh "m" in let x := fresh "x" in
  match type of E with wstep ?pass ?s ?l = Some _ => destruct l as [k x| |m| | | |b|t c|t ok|t]; cbn [wstep] in E end;
  [ splits E; destruct k; splits E
  | splits E
  | splits E
  | match type of E with watch_step ?s = Some _ => unfold watch_step in E; destruct (watching s) eqn:? end; splits E
  | match type of E with call_step ?s = Some _ => unfold call_step in E; destruct (calling s) as [| | | | | | | | |[|[[] ?] ?]|?|[] ?| |] eqn:? end; splits E
  | splits E
  | splits E
  | match type of E with match ?x with _ => _ end = _ => let p := fresh "p" in destruct x as [p|] eqn:?; [|discriminate E]; destruct p; try discriminate E; destruct c end
  | match type of E with match ?x with _ => _ end = _ => let p := fresh "p" in destruct x as [p|] eqn:?; [|discriminate E]; destruct p; try discriminate E end; splits E
  | match type of E with match ?x with _ => _ end = _ => let p := fresh "p" in destruct x as [p|] eqn:?; [|discriminate E];
      match type of E with cstep ?s ?t ?q = Some _ => destruct p; cbn [cstep] in E end; splits E end ];
  injection E as <-; sf.

Ltac tm := repeat match goal with H : calling ?s = _ |- _ => rewrite H in * | H : watching ?s = _ |- _ => rewrite H in * end.

(** ** Locks *)
Definition b2n (b : bool) : nat := if b then 1 else 0.
Definition crit (p : cpc) : bool := match p with CIdle | SLock | ULock | ELock | EIn => false | _ => true end.
Definition simulating (p : cpc) : bool := match p with EIn => true | _ => false end.
Definition self (p : dpc) : bool := match p with DSelf => true | _ => false end.
Definition in_cb (p : dpc) : bool := match p with DIn _ | DNest _ _ | DSelf => true | _ => false end.
Definition holds (p : dpc) : bool := match p with DLook | DPred | DBlock | DSwap => true | _ => false end.

Definition locks (s : wstate) : Prop :=
  number_of (fun p => b2n (crit p)) (clients s) + b2n (self (calling s)) = b2n (em_locked s) /\
  number_of (fun p => b2n (simulating p)) (clients s) + b2n (in_cb (calling s)) = b2n (im_locked s) /\
  cm_locked s = holds (calling s).

Ltac numbers :=
  match goal with
  | H : nth_error (clients ?s) ?t = Some _ |- context [upd (clients ?s) ?t ?q] =>
      let G1 := fresh "G1" in let G2 := fresh "G2" in
      pose proof (number_upd (fun p => b2n (crit p)) _ _ q _ H) as G1; pose proof (number_upd (fun p => b2n (simulating p)) _ _ q _ H) as G2;
      cbn [crit simulating b2n enter] in G1, G2
  | _ => idtac
  end.

(** new_watcher keeps the mutexes: it is created when there is none *)
Lemma step_count pass s l s' : locks s -> wstep pass s l = Some s' -> (forall t ok, l = Start t ok -> calling s = DNone) -> locks s'.
Proof.
  intros L E X. crack E; try pose proof (X _ _ eq_refl) as X1; clear X; destruct L as (I1 & I2 & I3); unfold locks; sf; tm; numbers; cbn [self in_cb holds b2n enter] in *;
    repeat match goal with H : em_locked _ = _ |- _ => rewrite H in * | H : im_locked _ = _ |- _ => rewrite H in * | H : cm_locked _ = _ |- _ => rewrite H in * end; cbn [b2n] in *;
    repeat match goal with |- context [em_locked ?x] => destruct (em_locked x); cbn [b2n] in * | |- context [im_locked ?x] => destruct (im_locked x); cbn [b2n] in * end; repeat split; try congruence; try lia.
  all: repeat match goal with H : context [im_locked ?x] |- _ => destruct (im_locked x); cbn [b2n] in * | H : context [em_locked ?x] |- _ => destruct (em_locked x); cbn [b2n] in * end; lia.
Qed.

(** ** What a thread has done *)
Definition nothing (s : wstate) : Prop := watching s = WNone /\ calling s = DNone /\ watch s = false.
Definition something (s : wstate) : Prop := watching s <> WNone /\ calling s <> DNone.
Definition alive (s : wstate) : Prop := watched s.
Definition rest (s : wstate) : Prop := is_set s = started s /\ destroyed s = false /\ (nothing s \/ (started s = true /\ alive s)).
Definition phase (p : cpc) (s : wstate) : Prop :=
  match p with
  | SSet | UClear => rest s
  | SStart => is_set s = true /\ started s = false /\ destroyed s = false /\ nothing s
  | SUnlock => rest s /\ is_set s = true
  | UStop => is_set s = false /\ started s = true /\ destroyed s = false /\ (nothing s \/ alive s)
  | URemove => is_set s = false /\ started s = true /\ destroyed s = true /\ something s
  | UNotify | UJoinW => is_set s = false /\ started s = true /\ destroyed s = true /\ something s /\ watch s = false
  | UJoinD => is_set s = false /\ started s = true /\ destroyed s = true /\ something s /\ watch s = false /\ watching s = WEnded
  | UFlag => is_set s = false /\ started s = true /\ destroyed s = false /\ nothing s
  | UUnlock => rest s /\ is_set s = false
  | _ => True
  end.

Definition phases (s : wstate) : Prop :=
  (em_locked s = false -> rest s) /\
  (forall t p, nth_error (clients s) t = Some p -> phase p s) /\
  (im_locked s = true -> calling s <> DSelf -> is_set s = true).

Lemma crit_alone s t u p q : locks s -> nth_error (clients s) t = Some p -> nth_error (clients s) u = Some q -> crit p = true -> crit q = true -> t = u.
Proof.
  intros (I & _) Hp Hq Cp Cq. destruct (Nat.eq_dec t u) as [E|D]; [exact E|]. pose proof (number_two (fun p => b2n (crit p)) _ _ _ _ _ D Hp Hq) as G. cbn beta in G. rewrite Cp, Cq in G.
  destruct (em_locked s); cbn [b2n] in *; lia.
Qed.
Lemma crit_locked s t p : locks s -> nth_error (clients s) t = Some p -> crit p = true -> em_locked s = true /\ self (calling s) = false.
Proof.
  intros (I & _) Hp Cp. pose proof (number_ge (fun p => b2n (crit p)) _ _ _ Hp) as G. cbn beta in G. rewrite Cp in G.
  destruct (em_locked s), (self (calling s)); cbn [b2n] in *; auto; lia.
Qed.
Lemma free_crit s t p : locks s -> em_locked s = false -> nth_error (clients s) t = Some p -> crit p = false.
Proof. intros L F H. destruct (crit p) eqn:C; [|reflexivity]. destruct (crit_locked _ _ _ L H C). congruence. Qed.
Lemma phase_out p s : crit p = false -> phase p s. Proof. destruct p; try discriminate; intros _; exact I. Qed.

(** the other threads are outside, or nothing they know changes *)
Lemma phases_upd s s' t p q : locks s -> nth_error (clients s) t = Some p -> crit p = true -> clients s' = upd (clients s) t q ->
  (em_locked s' = false -> rest s') -> phase q s' -> (im_locked s' = true -> calling s' <> DSelf -> is_set s' = true) -> phases s'.
Proof.
  intros L Hp Cp Ec R P M. split; [exact R|]. split; [|exact M]. intros u r Hu. rewrite Ec in Hu. apply nth_upd in Hu as [[-> ->]|[D Hu]]; [exact P|].
  apply phase_out. destruct (crit r) eqn:C; [|reflexivity]. exfalso. apply D. exact (crit_alone _ _ _ _ _ L Hu Hp C Cp).
Qed.

Lemma phases_free s s' t q : locks s -> em_locked s = false -> clients s' = upd (clients s) t q ->
  (em_locked s' = false -> rest s') -> phase q s' -> (im_locked s' = true -> calling s' <> DSelf -> is_set s' = true) -> phases s'.
Proof.
  intros L F Ec R P M. split; [exact R|]. split; [|exact M]. intros u r Hu. rewrite Ec in Hu. apply nth_upd in Hu as [[-> ->]|[D Hu]]; [exact P|].
  apply phase_out. exact (free_crit _ _ _ L F Hu).
Qed.

(** steps that change only the watcher *)
Definition advances (s s' : wstate) : Prop :=
  (watching s' = WNone <-> watching s = WNone) /\ (calling s' = DNone <-> calling s = DNone) /\
  (watching s = WEnded -> watching s' = WEnded) /\
  (destroyed s = false -> watching s <> WEnded -> watching s' <> WEnded) /\ (destroyed s = false -> calling s <> DEnded -> calling s' <> DEnded) /\
  (watch s = false -> watch s' = false).

Lemma nothing_advances s s' : advances s s' -> nothing s -> nothing s'.
Proof. intros (A1 & A2 & _ & _ & _ & A6) (N1 & N2 & N3). split; [apply A1; exact N1|]. split; [apply A2; exact N2|exact (A6 N3)]. Qed.
Lemma something_advances s s' : advances s s' -> something s -> something s'.
Proof. intros (A1 & A2 & _) (N1 & N2). split; intro X; [apply A1 in X|apply A2 in X]; contradiction. Qed.
Lemma alive_advances s s' : advances s s' -> destroyed s = false -> alive s -> alive s'.
Proof.
  intros (A1 & A2 & A3 & A4 & A5 & A6) D (N1 & N2 & N3 & N4). repeat split; try (intro X; first [apply A1 in X|apply A2 in X]; contradiction); auto.
Qed.

Lemma phases_watcher s s' : phases s -> clients s' = clients s -> em_locked s' = em_locked s -> is_set s' = is_set s -> started s' = started s -> destroyed s' = destroyed s ->
  advances s s' -> (im_locked s' = true -> calling s' <> DSelf -> is_set s' = true) -> phases s'.
Proof.
  intros (R & P & M) Ec Ee Es Ea Ed A M'.
  assert (rest s -> rest s') as RR.
  { intros (R1 & R2 & R3). unfold rest. rewrite Es, Ea, Ed. split; [exact R1|]. split; [exact R2|]. destruct R3 as [R3|[R3 R4]]; [left; exact (nothing_advances _ _ A R3)|right; split; [exact R3|exact (alive_advances _ _ A R2 R4)]]. }
  split; [|split; [|exact M']].
  - rewrite Ee. auto.
  - rewrite Ec. intros t p H. specialize (P t p H). pose proof (nothing_advances _ _ A) as AN. pose proof (something_advances _ _ A) as AS. pose proof (alive_advances _ _ A) as AA. destruct A as (A1 & A2 & A3 & A4 & A5 & A6).
    destruct p; cbn [phase] in *; rewrite ?Es, ?Ea, ?Ed; try tauto.
    all: intuition auto.
Qed.

Lemma phases_same s s' t q : phases s -> crit q = false -> clients s' = upd (clients s) t q -> em_locked s' = em_locked s -> is_set s' = is_set s -> started s' = started s -> destroyed s' = destroyed s ->
  watching s' = watching s -> calling s' = calling s -> watch s' = watch s ->
  (im_locked s' = true -> calling s' <> DSelf -> is_set s' = true) -> phases s'.
Proof.
  intros (R & P & M) Cq Ec Ee Es Ea Ed Ew Et Ek M'. unfold phases, rest, nothing, alive, watched, something in *. rewrite Ee, Es, Ea, Ed, Ew, Et, Ek, Ec in *. split; [exact R|split; [|exact M']].
  intros u r Hu. apply nth_upd in Hu as [[-> ->]|[D Hu]]; [apply phase_out; exact Cq|]. specialize (P u r Hu). destruct r; cbn [phase] in *; unfold rest, nothing, alive, watched, something in *; rewrite ?Es, ?Ea, ?Ed, ?Ew, ?Et, ?Ek; exact P.
Qed.

Lemma im_caller s : locks s -> in_cb (calling s) = true -> im_locked s = true.
Proof. intros (_ & I & _) C. rewrite C in I. destruct (im_locked s); [reflexivity|]. cbn [b2n] in I. lia. Qed.

Ltac adv := unfold advances; sf; tm; repeat split; intros; try congruence; try discriminate; auto.

Lemma step_phases pass s l s' : locks s -> phases s -> wstep pass s l = Some s' -> phases s'.
Proof.
  intros L P E. crack E; pose proof P as (R & PC & M).
  all: try match goal with H : nth_error (clients _) ?t = Some _, PC : forall t p, _ -> phase p _ |- _ => let F := fresh "F" in pose proof (PC _ _ H) as F; cbn [phase] in F end.
  all: try solve [match goal with P : phases ?s |- _ => apply (phases_watcher s); sf; auto end; [adv|..]; tm; try (intros; match goal with M : _ = true -> _ -> is_set _ = true |- _ => apply M end; [assumption|discriminate]); try (intros; assumption); try (intros; discriminate); try (intros; congruence)].
  all: try match goal with L : locks ?x, Hp : nth_error (clients ?x) ?t = Some ?p |- phases _ => lazymatch eval cbn in (crit p) with true =>
      pose proof (crit_locked _ _ _ L Hp eq_refl) as (? & ?); eapply (phases_upd x); [exact L|exact Hp|reflexivity|reflexivity|..]; sf end end.
  all: try match goal with L : locks ?x, Hp : nth_error (clients ?x) ?t = Some ?p, He : em_locked ?x = false |- phases _ => eapply (phases_free x); [exact L|exact He|reflexivity|..]; sf end.
  all: try solve [eapply phases_same; [exact P|..]; [|reflexivity..|]; sf; auto; try reflexivity; try discriminate].
  all: unfold rest, nothing, something, alive, watched in *; cbn [phase]; unfold rest, nothing, something, alive, watched; sf.
  all: try solve [intuition congruence].
  all: split; sf; [discriminate|]; split; sf; [|intros; congruence]; intros t p H; apply phase_out; eapply free_crit; eassumption.
Qed.

Lemma reach_inv pass allowed n s : wreachable pass allowed n s -> locks s /\ phases s.
Proof.
  induction 1 as [|s l s' H [IL IP] A E].
  - split.
    + unfold locks, winit; sf. rewrite !number_repeat by reflexivity. cbn. auto.
    + unfold phases, rest, nothing, winit; sf. repeat split; try discriminate; auto. intros t p Ht. assert (p = CIdle) as -> by (eapply nth_all; exact Ht). exact Logic.I.
  - split; [|exact (step_phases _ _ _ _ IL IP E)]. apply (step_count pass s l); [exact IL|exact E|]. intros t ok ->. cbn [wstep] in E. destruct (nth_error (clients s) t) as [p|] eqn:Hp; [|discriminate E].
    destruct p; try discriminate E. pose proof (proj1 (proj2 IP) _ _ Hp) as F. cbn [phase] in F. unfold nothing in F. tauto.
Qed.

Lemma reach_steps pass allowed n s ls : wreachable pass allowed n s -> Forall allowed ls -> forall s', wsteps pass s ls = Some s' -> wreachable pass allowed n s'.
Proof.
  intros R F. revert s R. induction F as [|l ls A F IH]; intros s R s' E; cbn [wsteps] in E; [injection E as <-; exact R|].
  destruct (wstep pass s l) as [s1|] eqn:E1; [|discriminate E]. exact (IH s1 (wr_step _ _ _ _ _ _ R A E1) s' E).
Qed.

(** ** No callback once unset *)
Definition setting (s : wstate) : Prop := last_set (history s) = false -> is_set s = false /\ nothing s.

Ltac know :=
  match goal with H : nth_error (clients ?s) ?t = Some _, P : phases ?s |- _ => let F := fresh "F" in pose proof (proj1 (proj2 P) _ _ H) as F; cbn [phase] in F end.

Lemma step_setting pass s l s' : locks s -> phases s -> setting s -> wstep pass s l = Some s' -> setting s'.
Proof.
  unfold setting. intros L P I E. crack E; cbn [last_set]; try know; try discriminate; try exact I; intro Q.
  all: try (destruct (I Q) as [J (T1 & T2 & T3)]; try congruence).
  all: unfold nothing; sf; unfold rest, nothing, something, alive, watched in *; try solve [intuition congruence].
Qed.

Lemma reach_setting pass allowed n s : wreachable pass allowed n s -> setting s.
Proof.
  induction 1 as [|s l s' H IH A E]; [intros _; unfold nothing; auto|]. destruct (reach_inv _ _ _ _ H) as [L P]. exact (step_setting _ _ _ _ L P IH E).
Qed.

Lemma not_running s : locks s -> phases s -> is_set s = false -> calling s = DNone -> ~ running s.
Proof.
  intros (_ & L & _) (_ & _ & M) S T R. assert (im_locked s = true) as I.
  - destruct R as [R|[t R]]; [rewrite T in R; destruct R|]. pose proof (number_ge (fun p => b2n (simulating p)) _ _ _ R) as G. cbn in G. destruct (im_locked s); [reflexivity|]. cbn [b2n] in L. lia.
  - rewrite (M I) in S by (rewrite T; discriminate). discriminate S.
Qed.

Lemma unset_lemma pass allowed n s : wreachable pass allowed n s -> last_set (history s) = false -> ~ running s /\ watching s = WNone /\ calling s = DNone.
Proof.
  intros H Q. destruct (reach_setting _ _ _ _ H Q) as [S (T1 & T2 & _)]. destruct (reach_inv _ _ _ _ H) as [L P]. split; [|auto]. exact (not_running s L P S T2).
Qed.

Lemma moment_step s s' (e : wevent) older : (history s' = history s \/ exists x, history s' = x :: history s) -> moment s' e older ->
  moment s e older \/ (history s' = e :: history s /\ older = history s).
Proof.
  intros H (nw & M). destruct H as [H|[x H]]; rewrite H in M.
  - left. exists nw. exact M.
  - destruct nw as [|y nw]; cbn in M; injection M as M1 M2.
    + right. subst. auto.
    + left. exists nw. exact M2.
Qed.
Lemma step_history pass s l s' : wstep pass s l = Some s' -> history s' = history s \/ exists x, history s' = x :: history s.
Proof. intro E. crack E; eauto. Qed.

Lemma only_set_lemma pass allowed n s e older : wreachable pass allowed n s -> moment s e older -> a_call e -> last_set older = true.
Proof.
  intros H M C. induction H as [|s l s' H IH A E]; [destruct M as ([|x nw] & M); discriminate M|].
  destruct (moment_step _ _ _ _ (step_history _ _ _ _ E) M) as [M'|[Eh ->]]; [exact (IH M')|].
  pose proof (reach_setting _ _ _ _ H) as I. unfold setting in I. destruct (last_set (history s)); [reflexivity|]. destruct (I eq_refl) as [S T]. exfalso.
  clear I M. crack E; try congruence; try (injection Eh as <-; cbn in C; exact C); try (apply (f_equal (@List.length wevent)) in Eh; cbn [List.length] in Eh; lia).
Qed.

Lemma quiet_caller pass n s : wreachable pass quiet n s -> (forall b l, calling s <> DNest b l) /\ calling s <> DSelf.
Proof.
  induction 1 as [|s l s' H [IH1 IH2] A E]; [split; discriminate|].
  crack E; cbn [quiet] in A; try contradiction; split; try discriminate; try assumption; try congruence.
Qed.

Lemma no_terminate pass n s : wreachable pass quiet n s -> ~ In VTerminate (history s).
Proof.
  induction 1 as [|s l s' H IH A E]; [intros []|]. destruct (quiet_caller _ _ _ H) as [Q1 Q2].
  crack E; cbn [In]; try exact IH; try (intros [Q|Q]; [discriminate Q|exact (IH Q)]). congruence.
Qed.

(** ** Set means watched, unless the creation failed *)
Definition knows (p : cpc) : bool := match p with SSet | SStart | SUnlock | UClear => true | _ => false end.
Definition agrees (s : wstate) : Prop := is_set s = last_set (history s).
Definition agreed (s : wstate) : Prop := (em_locked s = false -> agrees s) /\ forall t p, nth_error (clients s) t = Some p -> knows p = true -> agrees s.

Lemma knows_crit p : knows p = true -> crit p = true. Proof. destruct p; try discriminate; reflexivity. Qed.

Lemma agreed_same s s' : agreed s -> clients s' = clients s -> em_locked s' = em_locked s -> is_set s' = is_set s -> last_set (history s') = last_set (history s) -> agreed s'.
Proof. intros [A B] Ec Ee Es El. unfold agreed, agrees in *. rewrite Ec, Ee, Es, El. auto. Qed.

Lemma agreed_crit s s' t p q : locks s -> nth_error (clients s) t = Some p -> crit p = true -> clients s' = upd (clients s) t q -> (em_locked s' = false -> agrees s') -> (knows q = true -> agrees s') -> agreed s'.
Proof.
  intros L Hp Cp Ec A B. split; [exact A|]. intros u r Hu K. rewrite Ec in Hu. apply nth_upd in Hu as [[-> ->]|[D Hu]]; [exact (B K)|].
  exfalso. apply D. exact (crit_alone _ _ _ _ _ L Hu Hp (knows_crit _ K) Cp).
Qed.

Lemma agreed_out s s' t q : agreed s -> knows q = false -> clients s' = upd (clients s) t q -> em_locked s' = em_locked s -> is_set s' = is_set s -> last_set (history s') = last_set (history s) -> agreed s'.
Proof.
  intros [A B] Kq Ec Ee Es El. unfold agreed, agrees in *. rewrite Ee, Es, El, Ec. split; [exact A|]. intros u r Hu K. apply nth_upd in Hu as [[-> ->]|[D Hu]]; [congruence|]. exact (B u r Hu K).
Qed.

Lemma agreed_free s s' t q : locks s -> agreed s -> em_locked s = false -> clients s' = upd (clients s) t q -> em_locked s' = true -> is_set s' = is_set s -> last_set (history s') = last_set (history s) -> agreed s'.
Proof.
  intros L [A B] Fe Ec Ee Es El. unfold agreed, agrees in *. rewrite Ee, Es, El, Ec. split; [discriminate|]. intros u r Hu K. apply nth_upd in Hu as [[-> ->]|[D Hu]]; [exact (A Fe)|]. exact (B u r Hu K).
Qed.

Lemma step_agreed pass s l s' : locks s -> phases s -> agreed s -> quiet l -> wstep pass s l = Some s' -> (forall b l, calling s <> DNest b l) -> agreed s'.
Proof.
  intros L P A Q E N. crack E; cbn [quiet] in Q; try contradiction; try (exfalso; eapply N; first [eassumption|reflexivity]).
  all: try solve [eapply agreed_same; [exact A|reflexivity..]].
  all: try solve [match goal with Hp : nth_error (clients _) _ = Some ?p |- _ => eapply agreed_out; [exact A|reflexivity|reflexivity..] end].
  all: try solve [eapply agreed_out; [exact A|..]; [|reflexivity..]; reflexivity].
  all: try solve [eapply agreed_free; [exact L|exact A|assumption|reflexivity..]].
  all: match goal with L : locks ?x, A : agreed ?x, Hp : nth_error (clients ?x) ?t = Some ?p |- _ => pose proof (crit_locked _ _ _ L Hp eq_refl) as [? _]; let K := fresh "K" in pose proof (proj2 A _ _ Hp) as K; cbn [knows] in K end.
  all: know; eapply agreed_crit; [exact L|eassumption|reflexivity|reflexivity|..]; sf; unfold agrees in *; sf; cbn [last_set knows]; intros; auto; try congruence.
  all: exact (proj2 F).
Qed.

Lemma reach_agreed pass n s : wreachable pass quiet n s -> agreed s.
Proof.
  induction 1 as [|s l s' H IH A E].
  - split; [reflexivity|]. intros t p H K. unfold winit in H; sf. assert (p = CIdle) as -> by (eapply nth_all; exact H). discriminate K.
  - destruct (reach_inv _ _ _ _ H) as [L P]. eapply step_agreed; try eassumption. exact (proj1 (quiet_caller _ _ _ H)).
Qed.

Definition watches (s : wstate) : Prop := is_set s = true -> started s = true -> destroyed s = false /\ (last_failed (history s) = false -> alive s).

Lemma step_watches pass s l s' : locks s -> phases s -> watches s -> wstep pass s l = Some s' -> watches s'.
Proof.
  intros L P I E. crack E; try know; unfold watches in *; sf; cbn [last_failed]; intros S T; try discriminate S; try discriminate T; try (destruct (I S T) as [I1 I2]); try exact (I S T); clear I; unfold rest, nothing, something, alive, watched in *; sf; tm.
  all: try solve [intuition congruence].
  all: try solve [split; [assumption|]; intro Z; destruct (I2 Z) as (J1 & J2 & J3 & J4); repeat split; congruence].
Qed.

Lemma reach_watches pass allowed n s : wreachable pass allowed n s -> watches s.
Proof. induction 1 as [|s l s' H IH A E]; [intros [=]|]. destruct (reach_inv _ _ _ _ H) as [L P]. exact (step_watches _ _ _ _ L P IH E). Qed.

Lemma number_pos {A} (f : A -> nat) l : 0 < number_of f l -> exists i x, nth_error l i = Some x /\ 0 < f x.
Proof.
  induction l as [|a l IH]; unfold number_of in *; cbn; intro H; [lia|]. destruct (f a) eqn:Fa.
  - destruct IH as (i & x & Hx & Fx); [lia|]. exists (Datatypes.S i), x. auto.
  - exists 0, a. split; [reflexivity|lia].
Qed.
Lemma has_crit s : locks s -> em_locked s = true -> calling s <> DSelf -> exists t p, nth_error (clients s) t = Some p /\ crit p = true.
Proof.
  intros (L & _) E N. rewrite E in L. assert (self (calling s) = false) as F by (destruct (calling s); try reflexivity; congruence). rewrite F in L. cbn [b2n] in L.
  destruct (number_pos (fun p => b2n (crit p)) (clients s)) as (t & p & H & C); [lia|]. exists t, p. split; [exact H|]. destruct (crit p); [reflexivity|]. cbn in C. lia.
Qed.
Lemma has_simulating s : locks s -> im_locked s = true -> in_cb (calling s) = false -> exists t, nth_error (clients s) t = Some EIn.
Proof.
  intros (_ & L & _) E F. rewrite E, F in L. cbn [b2n] in L.
  destruct (number_pos (fun p => b2n (simulating p)) (clients s)) as (t & p & H & C); [lia|]. exists t. destruct p; cbn in C; try lia. exact H.
Qed.

Definition all_idle (s : wstate) : Prop := forall t p, nth_error (clients s) t = Some p -> p = CIdle.

Lemma idle_facts pass n s : wreachable pass quiet n s -> all_idle s -> last_set (history s) = true ->
  em_locked s = false /\ is_set s = true /\ started s = true /\ destroyed s = false /\ (in_cb (calling s) = false -> im_locked s = false).
Proof.
  intros R C S. destruct (reach_inv _ _ _ _ R) as [L P]. destruct (quiet_caller _ _ _ R) as [Q1 Q2]. destruct (reach_agreed _ _ _ R) as [A _].
  assert (em_locked s = false) as Em.
  { destruct (em_locked s) eqn:Em; [|reflexivity]. destruct (has_crit _ L Em Q2) as (t & p & H & K). rewrite (C _ _ H) in K. discriminate K. }
  specialize (A Em). unfold agrees in A. rewrite S in A. destruct (proj1 P Em) as (R1 & R2 & R3). rewrite A in R1. repeat split; auto.
  intro I. destruct (im_locked s) eqn:Im; [|reflexivity]. destruct (has_simulating _ L Im I) as [t H]. discriminate (C _ _ H).
Qed.

Lemma watched_lemma pass n s : wreachable pass quiet n s -> (forall t p, nth_error (clients s) t = Some p -> p = CIdle) -> last_set (history s) = true -> last_failed (history s) = false -> watched s.
Proof.
  intros R C S F. destruct (idle_facts _ _ _ R C S) as (_ & I & T & _). exact (proj2 (reach_watches _ _ _ _ R I T) F).
Qed.

(** ** Progress *)
Lemma caller_runs pass s : locks s -> (calling s <> DNone -> calling s <> DEnded -> calling s <> DSleep -> (forall b l, calling s <> DNest b l) -> calling s <> DSelf -> im_locked s = false \/ in_cb (calling s) = true ->
  exists s', wstep pass s Caller = Some s').
Proof.
  intros (_ & _ & L) N1 N2 N3 N4 N5 I. cbn [wstep]. unfold call_step. destruct (calling s) as [| | | | | | | | |[|[[] ?] ?]|?|? ?| |] eqn:T; cbn [holds] in L; try rewrite L; eauto; try congruence.
  - destruct I as [->|Q]; [|discriminate Q]. destruct (is_set s); eauto.
Qed.

Lemma progress_lemma pass n s t p : wreachable pass quiet n s -> nth_error (clients s) t = Some p -> inside p ->
  (exists l s', own_step l /\ wstep pass s l = Some s') \/ deaf s \/ forgotten s.
Proof.
  intros R Ht Hi. destruct (reach_inv _ _ _ _ R) as [L P]. destruct (quiet_caller _ _ _ R) as [Q1 Q2].
  destruct (in_cb (calling s)) eqn:C.
  { left. exists Caller. destruct (caller_runs pass s L) as [s' E]; try (intro X; rewrite X in C; discriminate C); auto. exists s'. split; [exact Logic.I|exact E]. }
  destruct (im_locked s) eqn:Im.
  { left. destruct (has_simulating _ L Im C) as [u Hu]. exists (Run u). cbn [wstep]. rewrite Hu. cbn [cstep]. eexists. split; [exact Logic.I|reflexivity]. }
  destruct (em_locked s) eqn:Em.
  - destruct (has_crit _ L Em Q2) as (u & q & Hu & Cq). pose proof (proj1 (proj2 P) _ _ Hu) as F.
    destruct q; try discriminate Cq; cbn [phase] in F;
      try solve [left; exists (Run u); cbn [wstep]; rewrite Hu; cbn [cstep]; rewrite ?Em, ?Im; try destruct (is_set s); try destruct (started s); try destruct (watching s); eexists; (split; [exact Logic.I|reflexivity])].
    + left. exists (Start u true). cbn [wstep]. rewrite Hu. destruct F as (_ & -> & _). eexists. split; [exact Logic.I|reflexivity].
    + destruct F as (F1 & F2 & F3 & [F4 F5] & F6). destruct (watching s) eqn:W.
      * congruence.
      * left. exists Watch. cbn [wstep]. unfold watch_step. rewrite W. eexists. split; [exact Logic.I|reflexivity].
      * destruct (kqueue s) as [|k0 kq] eqn:K; [right; left; unfold deaf; auto|]. left. exists (Read 1). cbn [wstep]. rewrite W, K. eexists. split; [exact Logic.I|reflexivity].
      * destruct (cm_locked s) eqn:Cm.
        -- left. exists Caller. pose proof (proj2 (proj2 L)) as L3. rewrite Cm in L3. destruct (caller_runs pass s L) as [s' E]; auto; try (intro X; rewrite X in L3; discriminate L3). exists s'. split; [exact Logic.I|exact E].
        -- left. exists Watch. cbn [wstep]. unfold watch_step. rewrite W, Cm. eexists. split; [exact Logic.I|reflexivity].
      * left. exists Watch. cbn [wstep]. unfold watch_step. rewrite W. eexists. split; [exact Logic.I|reflexivity].
      * left. exists (Run u). cbn [wstep]. rewrite Hu. cbn [cstep]. rewrite W. eexists. split; [exact Logic.I|reflexivity].
    + destruct F as (F1 & F2 & F3 & [F4 F5] & F6 & F7).
      assert (calling s = DSleep \/ calling s = DEnded \/ (calling s <> DSleep /\ calling s <> DEnded)) as [S|[S|[S1 S2]]] by (destruct (calling s); auto; right; right; split; discriminate).
      * right. right. split; assumption.
      * left. exists (Run u). cbn [wstep]. rewrite Hu. cbn [cstep]. rewrite S. eexists. split; [exact Logic.I|reflexivity].
      * left. exists Caller. destruct (caller_runs pass s L) as [s' E]; auto. exists s'. split; [exact Logic.I|exact E].
  - pose proof (free_crit _ _ _ L Em Ht) as Cp. left. exists (Run t). cbn [wstep]. rewrite Ht.
    destruct p; try discriminate Cp; cbn [cstep]; rewrite ?Em, ?Im; try destruct (is_set s); try (eexists; (split; [exact Logic.I|reflexivity])).
    all: destruct Hi; reflexivity.
Qed.

(** ** Without removal of the directory *)
Definition heard (s : wstate) : Prop := watch s = false -> watching s <> WNone -> destroyed s = true /\ (watching s = WRead -> kqueue s <> []).

Lemma app_one_not_nil {A} (l : list A) x : l ++ [x] <> []. Proof. destruct l; discriminate. Qed.

Lemma step_heard pass s l s' : phases s -> heard s -> calm l -> wstep pass s l = Some s' -> heard s'.
Proof.
  intros P I A E. crack E; try contradiction A; try know; unfold heard in *; sf; intros W N; try discriminate W; tm; try congruence.
  all: try (destruct (I W) as [I1 I2]; [congruence|]).
  all: unfold rest, nothing, something, alive, watched in *.
  all: try solve [split; [assumption|]; intros; try congruence; try discriminate; apply app_one_not_nil].
  all: try solve [split; [tauto|]; intros; apply app_one_not_nil].
  all: try solve [intuition congruence].
Qed.

Lemma reach_heard pass n s : wreachable pass calm n s -> heard s.
Proof. induction 1 as [|s l s' H IH A E]; [intros _ []; reflexivity|]. destruct (reach_inv _ _ _ _ H) as [L P]. exact (step_heard _ _ _ _ P IH A E). Qed.
Lemma not_deaf pass n s : wreachable pass calm n s -> ~ deaf s.
Proof. intros R (D1 & D2 & D3). destruct (reach_heard _ _ _ R D3) as [_ H]; [congruence|]. exact (H D1 D2). Qed.
Lemma calm_quiet pass n s : wreachable pass calm n s -> wreachable pass quiet n s.
Proof. induction 1 as [|s l s' H IH A E]; [constructor|]. econstructor; [exact IH| |exact E]. destruct l; try exact Logic.I; exact A. Qed.

(** ** Stuck *)
Lemma stuck_inv pass (I : wstate -> Prop) s : I s -> (forall s l s', I s -> l <> Spurious -> wstep pass s l = Some s' -> I s' /\ history s' = history s) -> stuck pass s.
Proof.
  intros H0 Hs ls. revert s H0. induction ls as [|l ls IH]; intros s H s' N E; cbn [wsteps] in E; [injection E as <-; reflexivity|].
  destruct (wstep pass s l) as [s1|] eqn:E1; [|discriminate E]. assert (l <> Spurious) as Nl by (intro X; apply N; left; exact X). destruct (Hs _ _ _ H Nl E1) as [H1 H2]. rewrite <- H2. apply (IH s1 H1 s'); [|exact E]. intro X. apply N. right. exact X.
Qed.

Definition jammed (t : nat) (s : wstate) : Prop := locks s /\ phases s /\
  ((deaf s /\ nth_error (clients s) t = Some UJoinW) \/ (forgotten s /\ nth_error (clients s) t = Some UJoinD)).

Lemma jammed_step pass t s l s' : jammed t s -> l <> Spurious -> wstep pass s l = Some s' -> jammed t s' /\ history s' = history s.
Proof.
  intros (L & P & C) NS E.
  assert (exists p, nth_error (clients s) t = Some p /\ crit p = true /\ (p = UJoinW \/ p = UJoinD) /\ is_set s = false /\ watch s = false) as (p & Hp & Cp & Op & Is & Wa).
  { destruct C as [[_ C]|[_ C]]; pose proof (proj1 (proj2 P) _ _ C) as F; cbn [phase] in F; eexists; repeat split; try exact C; auto; tauto. }
  destruct (crit_locked _ _ _ L Hp Cp) as [Em Sf].
  assert (in_cb (calling s) = false) as Ic.
  { destruct (in_cb (calling s)) eqn:Ic; [|reflexivity]. pose proof (im_caller _ L Ic) as Im. rewrite (proj2 (proj2 P) Im) in Is; [discriminate Is|]. intro X. rewrite X in Sf. discriminate Sf. }
  assert (forall u q, nth_error (clients s) u = Some q -> crit q = true -> u = t /\ q = p) as A.
  { intros u q Hu Cq. assert (u = t) as -> by (eapply crit_alone; [exact L|exact Hu|exact Hp|exact Cq|exact Cp]). split; [reflexivity|congruence]. }
  assert (forall u q, nth_error (clients s) u = Some q -> q <> EIn) as NE.
  { intros u q Hu ->. pose proof (proj2 (proj2 P)) as M. destruct L as (_ & L2 & _). pose proof (number_ge (fun p => b2n (simulating p)) _ _ _ Hu) as G. cbn in G. destruct (im_locked s); [|cbn [b2n] in L2; lia]. rewrite M in Is; [discriminate Is|reflexivity|]. intro X. rewrite X in Sf. discriminate Sf. }
  assert (locks s') as L'.
  { apply (step_count pass s l); [exact L|exact E|]. intros u ok ->. cbn [wstep] in E. destruct (nth_error (clients s) u) as [q|] eqn:Hu; [|discriminate E]. destruct q; try discriminate E. destruct (A _ _ Hu eq_refl) as [_ X]. destruct Op; congruence. }
  pose proof (step_phases _ _ _ _ L P E) as P'.
  assert (((deaf s' /\ nth_error (clients s') t = Some UJoinW) \/ (forgotten s' /\ nth_error (clients s') t = Some UJoinD)) /\ history s' = history s) as [G1 G2]; [|exact (conj (conj L' (conj P' G1)) G2)].
  clear L' P'. unfold deaf, forgotten in *.
  crack E; try congruence;
    try (match goal with H : nth_error (clients _) _ = Some ?q |- _ => assert_succeeds (destruct (A _ _ H eq_refl)); destruct (A _ _ H eq_refl) as [-> Z]; subst p; destruct Op as [Z|Z]; try discriminate Z end);
    try (exfalso; eapply NE; [eassumption|reflexivity]); try (tm; discriminate Ic).
  all: try (assert (t <> t0) by (intros ->; destruct C as [[_ C]|[_ C]]; congruence); rewrite !nth_upd_other by auto).
  all: try solve [split; [|reflexivity]; exact C].
  all: try solve [exfalso; destruct C as [[(C1 & C2 & C3) C4]|[[C1 C2] C3]]; try congruence; rewrite C2 in *; cbn [List.length] in *; lia].
  all: try solve [split; [|reflexivity]; destruct C as [[(C1 & C2 & C3) C4]|[[C1 C2] C3]]; try congruence; left; auto].
Qed.

Lemma deaf_stuck pass allowed n s t : wreachable pass allowed n s -> deaf s -> nth_error (clients s) t = Some UJoinW -> stuck pass s.
Proof. intros R D C. destruct (reach_inv _ _ _ _ R) as [L P]. apply (stuck_inv pass (jammed t)); [split; [exact L|]; split; [exact P|]; auto|]. intros. eapply jammed_step; eassumption. Qed.
Lemma forgotten_stuck pass allowed n s t : wreachable pass allowed n s -> forgotten s -> nth_error (clients s) t = Some UJoinD -> stuck pass s.
Proof. intros R D C. destruct (reach_inv _ _ _ _ R) as [L P]. apply (stuck_inv pass (jammed t)); [split; [exact L|]; split; [exact P|]; auto|]. intros. eapply jammed_step; eassumption. Qed.

(** ** Not watched *)
Definition patient (p : cpc) : bool := match p with CIdle | SLock | SSet | SUnlock | ELock | EIn => true | _ => false end.
Definition unwatched (s : wstate) : Prop := nothing s /\ is_set s = true /\ started s = true /\ forall t p, nth_error (clients s) t = Some p -> patient p = true.

Lemma unwatched_step pass s l s' : unwatched s -> (forall t, l <> Call t UnsetCallback) -> wstep pass s l = Some s' -> unwatched s'.
Proof.
  intros ((N1 & N2 & N3) & S & T & C) A E. crack E; try congruence.
  all: try (exfalso; eapply A; reflexivity).
  all: try match goal with H : nth_error (clients _) _ = Some _ |- _ => let Z := fresh "Z" in pose proof (C _ _ H) as Z; try discriminate Z end.
  all: unfold unwatched, nothing; sf; repeat split; try assumption; try exact C.
  all: intros u q Hu; apply nth_upd in Hu as [[-> ->]|[D Hu]]; [reflexivity|exact (C _ _ Hu)].
Qed.

Lemma unwatched_stays pass s ls : unwatched s -> (forall t, ~ In (Call t UnsetCallback) ls) -> forall s', wsteps pass s ls = Some s' -> unwatched s'.
Proof.
  revert s. induction ls as [|l ls IH]; intros s U A s' E; cbn [wsteps] in E; [injection E as <-; exact U|].
  destruct (wstep pass s l) as [s1|] eqn:E1; [|discriminate E]. apply (IH s1); [|intros t X; apply (A t); right; exact X|exact E].
  eapply unwatched_step; [exact U| |exact E1]. intros t ->. apply (A t). left. reflexivity.
Qed.

(** ** Delivery *)
Definition mods (l : list (kind * str)) : list str := flat_map (fun e => match fst e with Modified => [snd e] | _ => [] end) l.
Definition caller_list (p : dpc) : list (kind * str) := match p with DRun l | DIn l | DNest _ l => l | _ => [] end.
Definition watcher_list (p : wpc) : list (kind * str) := match p with WPut l => l | _ => [] end.
Definition pending (pass : str -> bool) (s : wstate) : list str :=
  mods (caller_list (calling s)) ++ mods (info s) ++ mods (watcher_list (watching s)) ++ mods (parse pass (kqueue s)).

Definition accounts (pass : str -> bool) (s : wstate) : Prop :=
  (exists l, reports (history s) = calls (history s) ++ l) /\
  (is_set s = true -> watching s <> WNone -> reports (history s) = calls (history s) ++ pending pass s).

Lemma mods_app l l' : mods (l ++ l') = mods l ++ mods l'. Proof. apply flat_map_app. Qed.
Lemma parse_app pass l l' : parse pass (l ++ l') = parse pass l ++ parse pass l'. Proof. apply flat_map_app. Qed.
Lemma parse_cut pass m l : parse pass (firstn m l) ++ parse pass (skipn m l) = parse pass l.
Proof. rewrite <- parse_app, firstn_skipn. reflexivity. Qed.

Lemma reports_cons e h : e <> VCreated -> reports (e :: h) = reports h ++ match e with VReported n => [n] | _ => [] end.
Proof. intro N. unfold reports. replace (since (e :: h)) with (e :: since h) by (destruct e; try reflexivity; congruence). cbn [rev]. rewrite flat_map_app. cbn [flat_map]. rewrite app_nil_r. reflexivity. Qed.
Lemma calls_cons e h : e <> VCreated -> calls (e :: h) = calls h ++ match e with VCalled n => [n] | _ => [] end.
Proof. intro N. unfold calls. replace (since (e :: h)) with (e :: since h) by (destruct e; try reflexivity; congruence). cbn [rev]. rewrite flat_map_app. cbn [flat_map]. rewrite app_nil_r. reflexivity. Qed.

Definition paired (s : wstate) : Prop := watching s = WNone <-> calling s = DNone.
Lemma step_paired pass s l s' : phases s -> paired s -> wstep pass s l = Some s' -> paired s'.
Proof.
  intros P I E. unfold paired in *. crack E; try know; unfold rest, nothing, something, alive, watched in *; tm; try exact I; try (intuition congruence).
Qed.
Lemma reach_paired pass allowed n s : wreachable pass allowed n s -> paired s.
Proof. induction 1 as [|s l s' H IH A E]; [split; reflexivity|]. destruct (reach_inv _ _ _ _ H) as [L P]. exact (step_paired _ _ _ _ P IH E). Qed.

Lemma step_accounts pass s l s' : locks s -> phases s -> paired s -> accounts pass s -> wstep pass s l = Some s' -> accounts pass s'.
Proof.
  intros L P Pa [I J] E. unfold accounts.
  crack E; try know; rewrite ?reports_cons, ?calls_cons by discriminate; rewrite ?app_nil_r; unfold pending; sf; tm; unfold rest, nothing, something, alive, watched in *; cbn [caller_list watcher_list mods flat_map fst snd parse app] in *.
  all: try solve [split; [exact I|exact J]].
  all: try solve [split; [exact I|]; intros; try congruence; try (rewrite J by (assumption || discriminate); unfold pending; tm; cbn [caller_list watcher_list mods flat_map fst snd app]; rewrite ?app_nil_r; reflexivity)].
  all: try (split; [exact I|]; intros S W; rewrite J by (assumption || discriminate || congruence); unfold pending; tm; cbn [caller_list watcher_list];
    rewrite ?parse_app, ?mods_app; cbn [parse flat_map app mods fst snd]; rewrite ?app_nil_r; try reflexivity).
  - destruct (pass x); cbn; rewrite app_nil_r; reflexivity.
  - destruct (pass x); cbn; rewrite app_nil_r; reflexivity.
  - destruct I as [l0 I]. split; [rewrite I; eexists; rewrite <- app_assoc; reflexivity|]. intros S W. rewrite J by assumption. unfold pending. rewrite parse_app, mods_app. cbn [parse flat_map app mods fst snd]. rewrite Heqb0. cbn [flat_map app fst snd]. rewrite <- !app_assoc. reflexivity.
  - rewrite Heqb0. cbn. rewrite app_nil_r. reflexivity.
  - change (flat_map _ (parse pass (firstn m (kqueue s)))) with (mods (parse pass (firstn m (kqueue s)))). rewrite <- (mods_app (parse pass (firstn m (kqueue s)))), parse_cut. reflexivity.
  - rewrite <- app_assoc. reflexivity.
  - assert (watching s <> WNone) as W by (intro X; apply Pa in X; congruence). specialize (J eq_refl W). unfold pending in J. rewrite Heqd in J. cbn [caller_list mods flat_map fst snd app] in J.
    split; [|intros _ _; rewrite J, <- app_assoc; reflexivity]. rewrite J. eexists. rewrite <- app_assoc. reflexivity.
  - split; [exists []; reflexivity|]. reflexivity.
  - split; [exact I|]. intros _ W. exfalso. destruct F as (F1 & F2 & F3). rewrite <- F1 in F3. rewrite Heqb0 in F3. intuition congruence.
Qed.

Lemma reach_accounts pass allowed n s : wreachable pass allowed n s -> accounts pass s.
Proof.
  induction 1 as [|s l s' H IH A E]; [split; [exists []; reflexivity|intros [=]]|]. destruct (reach_inv _ _ _ _ H) as [L P]. exact (step_accounts _ _ _ _ L P (reach_paired _ _ _ _ H) IH E).
Qed.

Lemma prefix_lemma pass allowed n s : wreachable pass allowed n s -> exists l, reports (history s) = calls (history s) ++ l.
Proof. intro R. exact (proj1 (reach_accounts _ _ _ _ R)). Qed.

Definition asleep (s : wstate) : Prop := (calling s = DBlock -> info s = []) /\ (calling s = DSleep -> info s = [] \/ watching s = WNotify).
Lemma step_asleep pass s l s' : locks s -> asleep s -> wstep pass s l = Some s' -> asleep s'.
Proof.
  intros (_ & _ & L) [I J] E. unfold asleep. crack E; tm; cbn [holds] in L; split; intro Q; try discriminate Q; try (first [exact (I Q)|exact (J Q)]); try congruence; auto.
  all: try (rewrite Q in L; cbn [holds] in L; congruence).
  all: try (destruct (J Q) as [X|X]; [left; exact X|congruence]).
Qed.
Lemma reach_asleep pass allowed n s : wreachable pass allowed n s -> asleep s.
Proof. induction 1 as [|s l s' H IH A E]; [split; discriminate|]. destruct (reach_inv _ _ _ _ H) as [L P]. exact (step_asleep _ _ _ _ L IH E). Qed.

Lemma delivered_lemma pass n s : wreachable pass quiet n s -> (forall t p, nth_error (clients s) t = Some p -> p = CIdle) -> last_set (history s) = true -> last_failed (history s) = false ->
  (forall l, own_step l -> wstep pass s l = None) -> calls (history s) = reports (history s).
Proof.
  intros R C S F N. pose proof (watched_lemma _ _ _ R C S F) as (W1 & W2 & W3 & W4). destruct (idle_facts _ _ _ R C S) as (Em & Is & St & De & Im).
  destruct (reach_inv _ _ _ _ R) as [L P]. destruct (quiet_caller _ _ _ R) as [Q1 Q2]. destruct (reach_accounts _ _ _ _ R) as [_ A]. specialize (A Is W1).
  assert (calling s = DSleep) as Cs.
  { assert (calling s = DSleep \/ calling s <> DSleep) as [X|X] by (destruct (calling s); auto; right; discriminate); [exact X|exfalso].
    destruct (caller_runs pass s L W3 W4 X Q1 Q2) as [s' E]; [destruct (in_cb (calling s)); auto|]. rewrite (N Caller Logic.I) in E. discriminate E. }
  pose proof (N Watch Logic.I) as Nw. pose proof (N (Read 1) Logic.I) as Nr. cbn [wstep] in Nw, Nr. unfold watch_step in Nw. pose proof (proj2 (proj2 L)) as Cm. rewrite Cs in Cm. cbn [holds] in Cm. rewrite Cm in Nw.
  destruct (watching s) eqn:W; try discriminate Nw; try congruence. destruct (kqueue s) as [|k0 kq] eqn:K; [|discriminate Nr].
  destruct (proj2 (reach_asleep _ _ _ _ R) Cs) as [X|X]; [|congruence]. rewrite A. unfold pending. rewrite Cs, X, W, K. cbn. rewrite app_nil_r. reflexivity.
Qed.

(** ** The watcher comes to rest *)
Definition bonus (s : wstate) : nat := match info s with [] => 0 | _ => 6 end.
Definition caller_work (s : wstate) : nat :=
  match calling s with
  | DSleep | DNone | DEnded => bonus s | DBlock => 1 + bonus s | DPred => 2 + bonus s | DLook | DWake => 3 + bonus s | DLock => 4 + bonus s | DTest => 5 + bonus s
  | DRun l => 6 + 2 * List.length l + bonus s | DIn l => 7 + 2 * List.length l + bonus s | DSwap => 7
  | DNest _ _ | DSelf => 0
  end.
Definition watcher_work (s : wstate) : nat := match watching s with WTest => 1 | WNotify => 5 | WPut l => 12 + 2 * List.length l | _ => 0 end.
Definition work (s : wstate) : nat := caller_work s + 2 * List.length (info s) + watcher_work s + 15 * List.length (kqueue s).

Lemma parse_length pass l : List.length (parse pass l) <= List.length l.
Proof. unfold parse. induction l as [|[k x|] l IH]; cbn [flat_map List.length app]; [lia| |lia]. rewrite app_length. destruct (pass x); cbn; lia. Qed.

Lemma work_step pass s l s' : locks s -> all_idle s -> destroyed s = false -> (forall b l, calling s <> DNest b l) -> calling s <> DSelf -> own_step l -> wstep pass s l = Some s' -> work s' < work s.
Proof.
  intros (_ & _ & L) C D Q1 Q2 O E. crack E; try contradiction O.
  all: try (match goal with H : nth_error (clients _) _ = Some _ |- _ => discriminate (C _ _ H) end).
  all: try congruence; try (exfalso; eapply Q1; first [eassumption|reflexivity]).
  all: unfold work, caller_work, watcher_work, bonus; sf; tm; rewrite ?app_length; cbn [List.length app].
  all: try match goal with |- context [parse ?f ?x] => pose proof (parse_length f x) end; rewrite ?firstn_length, ?skipn_length in *.
  all: try match goal with H : info _ = _ |- _ => rewrite H; cbn [List.length] end.
  all: try lia.
  all: try (match goal with |- context [info ?s] => destruct (info s) eqn:? end; cbn [List.length app]; try congruence; try lia).
  all: cbn [holds] in L; try (match goal with |- context [calling ?s] => destruct (calling s) end; cbn [holds] in *; try congruence; cbn [List.length]; lia).
  all: destruct (calling s); cbn [holds] in L; try congruence; destruct l; cbn [List.length]; lia.
Qed.

Lemma own_keeps pass s l s' : all_idle s -> (forall b l, calling s <> DNest b l) -> calling s <> DSelf -> own_step l -> wstep pass s l = Some s' ->
  all_idle s' /\ last_set (history s') = last_set (history s) /\ last_failed (history s') = last_failed (history s) /\ reports (history s') = reports (history s).
Proof.
  intros C Q1 Q2 O E. unfold all_idle. crack E; try contradiction O.
  all: try (match goal with H : nth_error (clients _) _ = Some _ |- _ => discriminate (C _ _ H) end).
  all: try congruence; try (exfalso; eapply Q1; first [eassumption|reflexivity]).
  all: repeat split; try assumption; rewrite ?reports_cons by discriminate; rewrite ?app_nil_r; reflexivity.
Qed.

Lemma own_quiet l : own_step l -> quiet l. Proof. destruct l; try contradiction; intros _; exact Logic.I. Qed.

Lemma delivers_lemma pass n s : wreachable pass quiet n s -> (forall t p, nth_error (clients s) t = Some p -> p = CIdle) -> last_set (history s) = true -> last_failed (history s) = false ->
  exists bound, forall ls s', Forall own_step ls -> wsteps pass s ls = Some s' ->
    List.length ls <= bound /\ ((forall l, own_step l -> wstep pass s' l = None) -> calls (history s') = reports (history s)).
Proof.
  intros R C S F. exists (work s). intros ls s' Hl. revert s R C S F. induction Hl as [|l ls O Hl IH]; intros s R C S F E; cbn [wsteps] in E.
  - injection E as <-. split; [cbn; lia|]. intro N. exact (delivered_lemma _ _ _ R C S F N).
  - destruct (wstep pass s l) as [s1|] eqn:E1; [|discriminate E]. destruct (quiet_caller _ _ _ R) as [Q1 Q2]. destruct (own_keeps _ _ _ _ C Q1 Q2 O E1) as (C1 & S1 & F1 & R1).
    destruct (idle_facts _ _ _ R C S) as (_ & _ & _ & D & _). destruct (reach_inv _ _ _ _ R) as [L _]. pose proof (work_step _ _ _ _ L C D Q1 Q2 O E1) as W.
    destruct (IH s1 (wr_step _ _ _ _ _ _ R (own_quiet _ O) E1) C1) as [B G]; [congruence|congruence|exact E|]. split; [cbn; lia|]. rewrite R1 in G. exact G.
Qed.

(** ** Paths *)
Lemma split_path_app p : fst (split_path p) ++ snd (split_path p) = p.
Proof. induction p as [|c p IH]; [reflexivity|]. cbn [split_path]. destruct (split_path p) as [d f]. cbn [fst snd] in IH. destruct d; [destruct (Ascii.eqb c slash)|]; cbn in *; congruence. Qed.
Lemma split_path_file p : ~ In slash (snd (split_path p)).
Proof.
  induction p as [|c p IH]; [intros []|]. cbn [split_path]. destruct (split_path p) as [d f]. cbn [fst snd] in IH. destruct d; [destruct (Ascii.eqb_spec c slash)|]; cbn [snd]; try exact IH.
  intros [X|X]; [contradiction|exact (IH X)].
Qed.
Lemma split_path_plain p : ~ In slash p -> split_path p = ([], p).
Proof.
  induction p as [|c p IH]; intro N; [reflexivity|]. cbn [split_path]. rewrite IH by (intro X; apply N; right; exact X). destruct (Ascii.eqb_spec c slash) as [->|D]; [|reflexivity].
  exfalso. apply N. left. reflexivity.
Qed.
Lemma split_path_dir p : In slash p -> exists d, fst (split_path p) = d ++ [slash].
Proof.
  induction p as [|c p IH]; [intros []|]. intro H. cbn [split_path]. destruct (in_dec Ascii.ascii_dec slash p) as [Y|Y].
  - destruct (IH Y) as [d Hd]. destruct (split_path p) as [d' f]. cbn [fst] in *. subst d'. exists (c :: d). destruct (d ++ [slash]) eqn:E; [destruct d; discriminate E|]. cbn [fst app]. rewrite <- E. reflexivity.
  - rewrite (split_path_plain p Y). destruct H as [->|H]; [|contradiction]. rewrite Ascii.eqb_refl. exists []. reflexivity.
Qed.
Lemma str_eqb_spec a b : str_eqb a b = true <-> a = b.
Proof.
  revert b. induction a as [|x a IH]; intros [|y b]; cbn; try (split; [discriminate|intros [=]]); [tauto|].
  destruct (Ascii.eqb_spec x y) as [->|D]; cbn; [rewrite IH; split; [intros ->; reflexivity|intros [=]; assumption]|split; [discriminate|intros [=]; contradiction]].
Qed.

Lemma single_lemma init stat add path t k : get_directory init stat add path = (Some t, k) -> stat path = Some true ->
  filename t = snd (split_path path) /\ (In slash path -> directory t ++ filename t = path) /\ (~ In slash path -> directory t = s "./" /\ filename t = path) /\
  add (directory t) = true /\ ~ In slash (filename t) /\
  forall name, ~ In slash name -> (pass_filter t name = true <-> name = filename t).
Proof.
  unfold get_directory. intros E St. destruct init; [|discriminate E]. rewrite St in E. unfold split_directory_and_file in E.
  pose proof (split_path_app path) as Ap. pose proof (split_path_file path) as Fi. pose proof (split_path_dir path) as Di. pose proof (split_path_plain path) as Pl. destruct (split_path path) as [d f]. cbn [fst snd] in *.
  cbv zeta beta iota in E. cbn [directory] in E. match type of E with (if ?c then _ else _) = _ => destruct c eqn:A end; [|discriminate E].
  injection E as <- <-. cbn [filename directory single]. split; [reflexivity|]. split; [|split; [|split; [exact A|split; [exact Fi|]]]].
  - intro H. destruct (Di H) as [d0 ->]. destruct (d0 ++ [slash]) eqn:E; [destruct d0; discriminate E|]. exact Ap.
  - intro H. specialize (Pl H). injection Pl as -> ->. split; reflexivity.
  - intros name N. unfold pass_filter. cbn [single filename]. unfold split_directory_and_file. rewrite (split_path_plain name N). cbn [snd]. apply str_eqb_spec.
Qed.

Lemma folder_lemma init stat add path t k : get_directory init stat add path = (Some t, k) -> stat path = Some false ->
  directory t = path /\ forall name, pass_filter t name = true <-> (~ In (ascii_of_nat 10) name /\ ~ In (ascii_of_nat 13) name).
Proof.
  unfold get_directory. intros E St. destruct init; [|discriminate E]. rewrite St in E. cbv zeta beta iota in E. cbn [directory] in E. destruct (add path); [|discriminate E]. injection E as <- <-. split; [reflexivity|]. intro name.
  unfold pass_filter. cbn [single]. unfold regex_all. rewrite forallb_forall. split.
  - intro H. split; intro X; specialize (H _ X); vm_compute in H; discriminate H.
  - intros [H1 H2] c Hc. destruct (Ascii.eqb_spec c (ascii_of_nat 10)) as [->|D1]; [contradiction|]. destruct (Ascii.eqb_spec c (ascii_of_nat 13)) as [->|D2]; [contradiction|]. reflexivity.
Qed.

(** ** The callback waits for a thread that waits for the callback *)
Definition crossed (t : nat) (s : wstate) : Prop := locks s /\ phases s /\ (exists b l, calling s = DNest b l) /\ (nth_error (clients s) t = Some SSet \/ nth_error (clients s) t = Some UClear).

Lemma crossed_step pass t s l s' : crossed t s -> wstep pass s l = Some s' -> crossed t s'.
Proof.
  intros (L & P & (b & l0 & T) & C) E. assert (im_locked s = true) as Im by (apply im_caller; [exact L|rewrite T; reflexivity]).
  assert (em_locked s = true) as Em by (destruct C as [C|C]; exact (proj1 (crit_locked _ _ _ L C eq_refl))).
  assert (is_set s = true) as Is by (apply (proj2 (proj2 P)); [exact Im|rewrite T; discriminate]).
  assert (forall u p, nth_error (clients s) u = Some p -> crit p = true -> u = t /\ (p = SSet \/ p = UClear)) as A.
  { intros u p Hu Cp. destruct C as [C|C]; assert (u = t) as -> by (eapply crit_alone; [exact L|exact Hu|exact C|exact Cp|reflexivity]); rewrite C in Hu; injection Hu as <-; auto. }
  assert (locks s') as L'.
  { apply (step_count pass s l); [exact L|exact E|]. intros u ok ->. cbn [wstep] in E. destruct (nth_error (clients s) u) as [q|] eqn:Hu; [|discriminate E]. destruct q; try discriminate E. destruct (A _ _ Hu eq_refl) as [_ X]. destruct X; congruence. }
  pose proof (step_phases _ _ _ _ L P E) as P'.
  assert ((exists b l, calling s' = DNest b l) /\ (nth_error (clients s') t = Some SSet \/ nth_error (clients s') t = Some UClear)) as (G1 & G2); [|exact (conj L' (conj P' (conj G1 G2)))].
  clear L' P'. crack E; try congruence; try (match goal with H : nth_error (clients s) _ = Some _ |- _ => destruct (A _ _ H eq_refl) as [-> [Z|Z]]; discriminate Z end); eauto.
  - assert (t <> t0) by (intros ->; destruct C; congruence). rewrite !nth_upd_other by auto. eauto.
  - assert (t <> t0) by (intros ->; destruct C; congruence). rewrite !nth_upd_other by auto. eauto.
  - assert (t <> t0) by (intros ->; destruct C; congruence). rewrite !nth_upd_other by auto. eauto.
  - exfalso. destruct L as (_ & L2 & _). rewrite T, Im in L2. cbn [in_cb b2n] in L2. pose proof (number_ge (fun p => b2n (simulating p)) _ _ _ Heqo) as G. cbn in G. lia.
Qed.

Lemma crossed_forever pass allowed n s b l t : wreachable pass allowed n s -> calling s = DNest b l -> nth_error (clients s) t = Some SSet \/ nth_error (clients s) t = Some UClear -> blocked_forever pass s t.
Proof.
  intros R T C ls. destruct (reach_inv _ _ _ _ R) as [L P]. assert (crossed t s) as X by (unfold crossed; eauto 6). clear R T C L P. revert s X.
  induction ls as [|l0 ls IH]; intros s X s' E; cbn [wsteps] in E.
  - injection E as <-. destruct X as (_ & _ & (b0 & l1 & T) & C). split; [left; rewrite T; exact Logic.I|]. destruct C as [C|C]; eexists; (split; [exact C|discriminate]).
  - destruct (wstep pass s l0) as [s1|] eqn:E1; [|discriminate E]. exact (IH s1 (crossed_step _ _ _ _ _ X E1) s' E).
Qed.

(** ** Without the lost notification *)
Lemma tight_calm pass n s : wtight pass n s -> wreachable pass calm n s.
Proof. induction 1 as [|s l s' H IH A B E]; [constructor|]. econstructor; [exact IH|exact A|exact E]. Qed.
Definition waking (s : wstate) : Prop := exists t, nth_error (clients s) t = Some URemove \/ nth_error (clients s) t = Some UNotify.
Definition notified (s : wstate) : Prop := calling s = DSleep \/ calling s = DBlock -> destroyed s = true -> waking s.
Lemma waking_upd s s' t p q : waking s -> nth_error (clients s) t = Some p -> p <> UNotify -> (p = URemove -> q = UNotify) -> clients s' = upd (clients s) t q -> waking s'.
Proof.
  intros [u H] Ht N R C. unfold waking. rewrite C. destruct (Nat.eq_dec t u) as [<-|D].
  - exists t. rewrite (nth_upd_same _ _ _ _ Ht). rewrite Ht in H. destruct H as [H|H]; injection H as ->; [right; rewrite R; reflexivity|contradiction].
  - exists u. rewrite nth_upd_other by exact D. exact H.
Qed.
Lemma waking_same s s' : waking s -> clients s' = clients s -> waking s'.
Proof. intros [u H] C. exists u. rewrite C. exact H. Qed.
Lemma notified_step pass s l s' : notified s -> calm l -> (calling s = DBlock -> l = Caller) -> wstep pass s l = Some s' -> notified s'.
Proof.
  intros N A B E. unfold notified in *. intros C D.
  crack E; try contradiction A; tm; sf; try (destruct C as [C|C]; discriminate C); try congruence.
  all: try (eapply waking_same; [apply N; assumption|reflexivity]).
  all: try (eapply waking_same; [apply N; [right; reflexivity|assumption]|reflexivity]).
  all: try (destruct C as [C|C]; [|specialize (B C); discriminate B]; try congruence).
  { eapply waking_same; [apply N; auto|reflexivity]. }
  all: match goal with H : nth_error (clients ?s) ?t = Some _ |- _ => first
    [ solve [eapply (waking_upd s _ t); [apply N; auto|exact H|discriminate|discriminate|reflexivity]]
    | solve [eapply (waking_upd s _ t); [apply N; auto|exact H|discriminate|reflexivity|reflexivity]]
    | exists t; sf; rewrite (nth_upd_same _ _ _ _ H); auto ] end.
Qed.
Lemma ended_step pass s l s' : (watching s = WEnded -> destroyed s = true) -> calm l -> wstep pass s l = Some s' -> watching s' = WEnded -> destroyed s' = true.
Proof. intros N A E W. crack E; try contradiction A; tm; sf; try discriminate W; try congruence; auto; specialize (N eq_refl); congruence. Qed.
Lemma tight_lemma pass n s t p : wtight pass n s -> nth_error (clients s) t = Some p -> inside p -> exists l s', own_step l /\ wstep pass s l = Some s'.
Proof.
  intros T H I. pose proof (tight_calm _ _ _ T) as R.
  destruct (progress_lemma _ _ _ _ _ (calm_quiet _ _ _ R) H I) as [P|[D|[F1 F2]]]; [exact P|destruct (not_deaf _ _ _ R D)|].
  assert (notified s /\ (watching s = WEnded -> destroyed s = true)) as [N W].
  { clear - T. induction T as [|s l s' T [IH1 IH2] A B E]; [split; [intros [Q|Q]; discriminate Q|discriminate]|].
    split; [exact (notified_step _ _ _ _ IH1 A B E)|exact (ended_step _ _ _ _ IH2 A E)]. }
  destruct (N (or_introl F1) (W F2)) as [u [Hu|Hu]]; exists (Run u); eexists; (split; [exact Logic.I|]); cbn [wstep]; rewrite Hu; reflexivity.
Qed.
