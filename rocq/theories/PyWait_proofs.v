(** Proofs about the wait handlers of py_utils. *)
From Coq Require Import ZifyBool ZifyNat ZifyN.
From Verif Require Import PyWait_model PyWait_spec.

Ltac sf := cbn [value enabled locked waiting now threads history set_value set_enabled set_locked set_waiting set_now set_thread say notify finish] in *.

Definition b2n (b : bool) : nat := if b then 1 else 0.
Definition spins (p : pc) : nat := match p with BSpin => 1 | _ => 0 end.
Definition waits (p : pc) : nat := match p with WSleep _ _ | WWake _ _ => 1 | _ => 0 end.
Definition raised (ev : list event) : nat := List.length (filter (fun e => match e with VRaised _ => true | _ => false end) ev).

Lemma number_map {A} (f : A -> nat) (g : A -> A) l : (forall a, f (g a) = f a) -> number_of f (map g l) = number_of f l.
Proof. intro H. induction l as [|a l IH]; unfold number_of in *; cbn; [reflexivity|]. rewrite H, IH. reflexivity. Qed.
Lemma spins_wake p : spins (wake p) = spins p. Proof. destruct p; reflexivity. Qed.
Lemma waits_wake p : waits (wake p) = waits p. Proof. destruct p; reflexivity. Qed.
Lemma nth_wake l t p : nth_error (map wake l) t = Some p -> exists q, nth_error l t = Some q /\ p = wake q.
Proof. rewrite nth_error_map. destruct (nth_error l t) as [q|]; cbn; [|discriminate]. intro E. injection E as <-. eauto. Qed.

Lemma test_cases s p : (enabled s = false /\ test s p = Some true) \/ (enabled s = true /\ test s p = p (value s)).
Proof. unfold test. destruct (enabled s); auto. Qed.

(** all cases of a step *)
Ltac cases E :=
  repeat (match type of E with
  | (if ?c then _ else _) = _ => destruct c eqn:?
  | Some (match ?c with _ => _ end) = _ => destruct c eqn:?
  | match ?c with _ => _ end = _ => destruct c eqn:?
  end; try discriminate E); try discriminate E.
Ltac crack E :=
  match type of E with step ?s ?l = Some _ => destruct l as [?|?|? ?|?]; cbn [step] in E; unfold enter, again in E; cases E; injection E as <-; sf end.

Definition inv (s : state) : Prop :=
  number_of spins (threads s) = b2n (locked s) /\
  waiting s = number_of waits (threads s) + raised (history s) /\
  (locked s = true -> waiting s <> 0 /\ enabled s = false) /\
  (forall t p d, nth_error (threads s) t = Some (WSleep p d) -> enabled s = true /\ p (value s) = Some false).

Ltac numbers :=
  match goal with
  | H : nth_error (threads ?s) ?t = Some _ |- context [upd (threads ?s) ?t ?q] =>
      let G1 := fresh "G" in let G2 := fresh "G" in
      pose proof (number_upd spins _ _ q _ H) as G1; pose proof (number_upd waits _ _ q _ H) as G2; cbn [spins waits] in G1, G2
  | _ => idtac
  end.

Lemma spin_locks s t : number_of spins (threads s) = b2n (locked s) -> nth_error (threads s) t = Some BSpin -> locked s = true.
Proof. intros H Ht. pose proof (number_ge spins _ _ _ Ht) as G. cbn [spins] in G. destruct (locked s); [reflexivity|cbn [b2n] in H; lia]. Qed.

Lemma inv_step s l s' : inv s -> step s l = Some s' -> inv s'.
Proof.
  intros I E. crack E; destruct I as (I1 & I2 & I3 & I4).
  all: try match goal with I1 : number_of spins _ = _, I3 : locked _ = true -> _, H : nth_error (threads _) _ = Some BSpin |- _ => pose proof (spin_locks _ _ I1 H) as L; destruct (I3 L) as [W EN] end.
  all: try congruence.
  all: unfold inv; sf; numbers; rewrite ?(number_map spins wake _ spins_wake), ?(number_map waits wake _ waits_wake);
    unfold raised in *; cbn [filter List.length b2n] in *.
  all: repeat match goal with H : locked _ = _ |- _ => rewrite H in * | H : waiting _ = _ |- _ => rewrite H in * end; cbn [b2n pred] in *.
  all: refine (conj _ (conj _ (conj _ _))); try lia.
  all: try solve [intro Q; first [discriminate Q|match goal with I3 : locked _ = true -> _ |- _ => first [exact (I3 Q)|destruct (I3 Q); split; [lia|assumption]] end|split; [lia|first [reflexivity|assumption]]]].
  all: try solve [intros u r e Hu; apply nth_upd in Hu as [[-> Hu]|[D Hu]]; [discriminate Hu|eauto]].
  all: try solve [intros u r e Hu; apply nth_wake in Hu as (q & Hu & Hq); destruct q; discriminate Hq].
  all: try solve [assumption].
  all: intros u r e Hu; apply nth_upd in Hu as [[-> Hu]|[D Hu]]; [try discriminate Hu; injection Hu as Ha Hb; subst r|].
  all: try solve [eauto].
  all: try solve [unfold test in *; sf; destruct (enabled _); [auto|discriminate]].
  { split; [reflexivity|exact (proj2 (I4 _ _ _ Hu))]. }
  { pose proof (number_ge waits _ _ _ Hu) as G1. cbn [waits] in G1. lia. }
Qed.

Lemma inv_reach e v n allowed s : reachable e v n allowed s -> inv s.
Proof.
  induction 1 as [|s l s' R IH A E]; [|exact (inv_step _ _ _ IH E)].
  unfold inv, init; sf. cbn [b2n]. rewrite !number_repeat by reflexivity.
  refine (conj eq_refl (conj eq_refl (conj _ _))); [discriminate|]. intros t p d Q. apply nth_all in Q. discriminate Q.
Qed.

Lemma not_itself {A} (x : A) l : l <> x :: l.
Proof. intro H. apply (f_equal (@List.length _)) in H. cbn [List.length] in H. lia. Qed.

(** deadlines *)
Definition due (s : state) : Prop := forall t p d, nth_error (threads s) t = Some (WSleep p d) \/ nth_error (threads s) t = Some (WWake p d) ->
  exists a o, last_waits t (history s) = Some (a, o) /\ d = option_map (fun x => (a + x)%N) o.

Lemma due_step s l s' : due s -> step s l = Some s' -> due s'.
Proof.
  intros D E. crack E; unfold due in *; sf.
  all: intros u r e [Hu|Hu]; try apply nth_wake in Hu as (q & Hu & Hq); try (destruct q; try discriminate Hq; injection Hq as -> ->);
    try (apply nth_upd in Hu as [[-> Hu]|[N Hu]]; [try discriminate Hu; injection Hu as Ha Hb; subst|]); cbn [last_waits].
  all: try solve [apply (D _ r); eauto].
  all: try solve [eapply D; eauto].
  all: rewrite ?Nat.eqb_refl; try (rewrite (proj2 (Nat.eqb_neq _ _)) by congruence).
  all: try solve [eapply D; eauto].
  exists (now s), timeout. split; [reflexivity|]. destruct timeout; reflexivity.
Qed.
Lemma due_reach e v n allowed s : reachable e v n allowed s -> due s.
Proof.
  induction 1 as [|s l s' R IH A E]; [|exact (due_step _ _ _ IH E)].
  intros t p d [Q|Q]; apply nth_all in Q; discriminate Q.
Qed.

Lemma reason_of e v n allowed s l s' t r : reachable e v n allowed s -> step s l = Some s' -> history s' = VWaited t r :: history s ->
  exists p, waits_for s t p /\ enabled s' = enabled s /\ value s' = value s /\
    (r = Disabled <-> enabled s = false) /\
    (r = ConditionMet <-> enabled s = true /\ p (value s) = Some true) /\
    (r = Timeout -> enabled s = true /\ p (value s) = Some false /\
       exists a d, last_waits t (history s) = Some (a, Some d) /\ (a + d <= now s)%N).
Proof.
  intros R E H. pose proof (due_reach _ _ _ _ _ R) as D.
  crack E; try (exfalso; exact (not_itself _ _ H)); try discriminate H; injection H as <- <-.
  all: match goal with H : nth_error _ _ = Some (Enter (Wait ?q _)) |- _ => exists q | H : nth_error _ _ = Some (WWake ?q _) |- _ => exists q end.
  all: split; [unfold waits_for; eauto|]; split; [reflexivity|]; split; [reflexivity|].
  all: unfold test in *; sf; destruct (enabled s) eqn:EN; refine (conj (conj _ _) (conj (conj _ _) _)); try discriminate; try tauto; try solve [split; congruence].
  all: try solve [intros [? ?]; congruence].
  all: subst; intros _; split; [reflexivity|]; split; [assumption|]; match goal with H : nth_error _ _ = Some (WWake _ _) |- _ => destruct (D _ _ _ (or_intror H)) as (a & o & L & ->) end.
  all: destruct o as [x|]; [|discriminate]; exists a, x; split; [exact L|].
  all: match goal with H : expired _ _ = true |- _ => cbn [option_map expired] in H; apply N.leb_le in H; exact H end.
Qed.

(** no lost wake-ups *)
Lemma asleep e v n allowed s t p d : reachable e v n allowed s -> nth_error (threads s) t = Some (WSleep p d) -> enabled s = true /\ p (value s) = Some false.
Proof. intros R. apply (inv_reach _ _ _ _ _ R). Qed.

Lemma no_spin s : number_of spins (threads s) = 0 -> forall t, nth_error (threads s) t <> Some BSpin.
Proof. intros H t Ht. pose proof (number_ge spins _ _ _ Ht) as G. cbn [spins] in G. lia. Qed.

Lemma free_step s l s' : (locked s = false /\ forall t, nth_error (threads s) t <> Some (Enter BlockingDisable) /\ nth_error (threads s) t <> Some BSpin) ->
  plain l -> step s l = Some s' -> locked s' = false /\ forall t, nth_error (threads s') t <> Some (Enter BlockingDisable) /\ nth_error (threads s') t <> Some BSpin.
Proof.
  intros H P E. crack E; destruct H as [F G]; try (split; [assumption|]).
  all: try solve [exfalso; match goal with Q : nth_error _ ?t = _ |- _ => destruct (G t); congruence end].
  all: intro u; split; intro Hu; destruct (G u) as [G1 G2].
  all: try (apply nth_wake in Hu as (q & Hu & Hq); destruct q; try discriminate Hq; try (injection Hq as <-)).
  all: try (apply nth_upd in Hu as [[-> Hu]|[N Hu]]; [try discriminate Hu; try (injection Hu as <-; exact P)|]); auto.
Qed.
Lemma free e v n s : reachable e v n plain s -> locked s = false /\ forall t, nth_error (threads s) t <> Some (Enter BlockingDisable) /\ nth_error (threads s) t <> Some BSpin.
Proof.
  induction 1 as [|s l s' R IH A E]; [|exact (free_step _ _ _ IH A E)].
  split; [reflexivity|]. intro t; split; intro Q; apply nth_all in Q; discriminate Q.
Qed.

Lemma rest e v n s : reachable e v n plain s -> at_rest s -> forall t q, nth_error (threads s) t = Some q ->
  q = Idle \/ exists p d, q = WSleep p d /\ enabled s = true /\ p (value s) = Some false /\ expired s d = false.
Proof.
  intros R A t q Ht. destruct (free _ _ _ _ R) as [F G]. destruct q as [|o|p d|p d|].
  - left; reflexivity.
  - specialize (A (Run t) Logic.I). cbn [step] in A. rewrite Ht, F in A. discriminate A.
  - right. exists p, d. destruct (asleep _ _ _ _ _ _ _ _ R Ht) as [EN P]. repeat split; auto.
    specialize (A (Expire t) Logic.I). cbn [step] in A. rewrite Ht in A. destruct (expired s d); [discriminate A|reflexivity].
  - specialize (A (Run t) Logic.I). cbn [step] in A. rewrite Ht, F in A. discriminate A.
  - destruct (G t); congruence.
Qed.

(** own steps come to an end *)
Definition load (s : state) (n : nat) (q : pc) : nat :=
  match q with
  | Enter _ => 4 + 3 * n
  | WSleep _ d => if expired s d then 3 else 0
  | WWake _ d => if expired s d then 2 else 1
  | _ => 0
  end.
Definition work (s : state) : nat := number_of (load s (List.length (threads s))) (threads s).

Lemma number_eq {A} (f g : A -> nat) l : (forall x, f x = g x) -> number_of f l = number_of g l.
Proof. intro H. induction l as [|a l IH]; [reflexivity|]. unfold number_of in *; cbn. rewrite H, IH. reflexivity. Qed.
Lemma number_wake s n l : number_of (load s n) (map wake l) <= number_of (load s n) l + List.length l.
Proof.
  induction l as [|a l IH]; [cbn; lia|]. unfold number_of in *; cbn [map fold_right List.length].
  assert (load s n (wake a) <= load s n a + 1) by (destruct a; cbn [wake load]; try destruct (expired s deadline); lia). lia.
Qed.
Lemma load_now s s' n q : now s' = now s -> load s' n q = load s n q.
Proof. intro H. destruct q; cbn [load]; unfold expired; rewrite ?H; reflexivity. Qed.

Lemma work_step s l s' : locked s = false -> (forall t, nth_error (threads s) t <> Some (Enter BlockingDisable) /\ nth_error (threads s) t <> Some BSpin) ->
  own_step l -> step s l = Some s' -> work s' < work s.
Proof.
  intros F G O E. unfold work.
  crack E; try contradiction O.
  all: try solve [exfalso; match goal with Q : nth_error _ ?t = _ |- _ => destruct (G t); congruence end].
  all: rewrite ?map_length, ?upd_length.
  all: match goal with |- number_of (load _ (List.length (threads ?x))) _ < _ => try (rewrite (number_eq _ (load x (List.length (threads x)))) by (intro; apply load_now; reflexivity)) end.
  all: match goal with H : nth_error (threads ?x) ?t = Some _ |- context [upd (threads ?x) ?t ?q] =>
      pose proof (number_upd (load x (List.length (threads x))) _ _ q _ H) as G1 end; cbn [load] in G1.
  all: try match goal with H : nth_error (threads ?x) ?t = Some _ |- context [map wake ?l] => pose proof (number_wake x (List.length (threads x)) l) as G2; rewrite upd_length in G2 end.
  all: repeat match goal with H : expired _ _ = _ |- _ => rewrite H in * end.
  all: try (match type of G1 with context [expired ?a ?b] => destruct (expired a b) end); lia.
Qed.

Lemma work_runs e v n s ls s' : reachable e v n plain s -> Forall own_step ls -> steps s ls = Some s' -> List.length ls + work s' <= work s /\ reachable e v n plain s'.
Proof.
  revert s. induction ls as [|l ls IH]; intros s R F E; cbn [steps List.length] in *; [injection E as <-; split; [lia|exact R]|].
  destruct (step s l) as [m|] eqn:El; [|discriminate]. inversion F as [|? ? O F']; subst. destruct (free _ _ _ _ R) as [L G].
  pose proof (work_step _ _ _ L G O El). assert (P : plain l) by (destruct l; [exact Logic.I|exact Logic.I|contradiction O|exact Logic.I]).
  destruct (IH _ (r_step _ _ _ _ _ _ _ R P El) F' E). split; [lia|assumption].
Qed.

(** values *)
Lemma value_reach e v n allowed s : reachable e v n allowed s -> value s = value_after v (history s).
Proof.
  induction 1 as [|s l s' R IH A E]; [reflexivity|]. crack E; cbn [value_after]; try rewrite IH; try reflexivity; assumption.
Qed.

Definition each (P : event -> list event -> Prop) (ev : list event) : Prop := forall newer e older, ev = newer ++ e :: older -> P e older.
Lemma each_nil P : each P [].
Proof. intros newer e older E. destruct newer; discriminate E. Qed.
Lemma each_cons (P : event -> list event -> Prop) e ev : P e ev -> each P ev -> each P (e :: ev).
Proof. intros H G newer e' older E. destruct newer as [|x newer]; cbn in E; injection E as -> E; [subst; exact H|exact (G newer e' older E)]. Qed.

Definition seen (v : Z) (e : event) (older : list event) : Prop := match e with VGot _ x => x = value_after v older | _ => True end.
Lemma seen_reach e v n allowed s : reachable e v n allowed s -> each (seen v) (history s).
Proof.
  induction 1 as [|s l s' R IH A E]; [apply each_nil|].
  crack E; try exact IH; apply each_cons; try exact IH; cbn [seen]; try exact Logic.I. exact (value_reach _ _ _ _ _ R).
Qed.
Lemma got e v n allowed s t x older : reachable e v n allowed s -> moment s (VGot t x) older -> x = value_after v older.
Proof. intros R (newer & H). exact (seen_reach _ _ _ _ _ R _ _ _ H). Qed.

(** disable *)
Lemma disabled_rest e v n s : reachable e v n plain s -> at_rest s -> enabled s = false -> forall t q, nth_error (threads s) t = Some q -> q = Idle.
Proof.
  intros R A D t q Ht. destruct (rest _ _ _ _ R A _ _ Ht) as [H|(p & d & _ & H & _)]; [exact H|congruence].
Qed.

(** blocking_disable *)
Definition spinning (s : state) (t : nat) : Prop := nth_error (threads s) t = Some BSpin /\ locked s = true /\ waiting s <> 0 /\ number_of spins (threads s) = 1.
Lemma spinning_step s t l s' : spinning s t -> step s l = Some s' -> spinning s' t /\ history s' = history s.
Proof.
  intros S E. assert (only : forall u, nth_error (threads s) u = Some BSpin -> u = t).
  { intros u Hu. destruct S as (S1 & S2 & S3 & S4). destruct (Nat.eq_dec u t) as [|D]; [assumption|].
    pose proof (number_two spins _ _ _ _ _ D Hu S1) as G. cbn [spins] in G. lia. }
  crack E; destruct S as (S1 & S2 & S3 & S4); try congruence; unfold spinning; sf; (split; [|reflexivity]).
  all: numbers; rewrite ?(number_map spins wake _ spins_wake).
  all: refine (conj _ (conj _ (conj _ _))); try assumption; try lia; try congruence.
  all: try (rewrite nth_error_map, S1; reflexivity).
  all: rewrite nth_upd_other; [assumption|]; intros ->; congruence.
Qed.
Lemma spinning_stuck s t : spinning s t -> stuck s.
Proof.
  intros S ls. revert s S. induction ls as [|l ls IH]; intros s S s' E; cbn [steps] in E; [injection E as <-; reflexivity|].
  destruct (step s l) as [m|] eqn:El; [|discriminate]. destruct (spinning_step _ _ _ _ S El) as [S' H]. rewrite (IH _ S' _ E). exact H.
Qed.

Lemma blocking e v n allowed s t s' : reachable e v n allowed s -> nth_error (threads s) t = Some (Enter BlockingDisable) -> step s (Run t) = Some s' ->
  ((forall u p d, nth_error (threads s) u <> Some (WSleep p d) /\ nth_error (threads s) u <> Some (WWake p d)) ->
   (forall u, ~ In (VRaised u) (history s)) -> history s' = VBlocked t :: history s /\ enabled s' = false) /\
  ((exists u p d, nth_error (threads s) u = Some (WSleep p d) \/ nth_error (threads s) u = Some (WWake p d)) \/ (exists u, In (VRaised u) (history s)) -> stuck s').
Proof.
  intros R Ht E. pose proof (inv_reach _ _ _ _ _ R) as (I1 & I2 & I3 & I4). cbn [step] in E. rewrite Ht in E.
  destruct (locked s) eqn:L; [discriminate|]. injection E as <-. cbn [b2n] in I1. unfold enter; sf. split.
  - intros H1 H2. assert (W : waiting s = 0).
    { rewrite I2. replace (number_of waits (threads s)) with 0.
      - unfold raised. clear -H2. induction (history s) as [|x ev IH]; [reflexivity|]. cbn [filter]. destruct x; try (apply IH; intros u Hu; exact (H2 u (or_intror Hu))).
        exfalso. exact (H2 t (or_introl eq_refl)).
      - symmetry. apply number_zero. intros i x Hx. destruct x; try reflexivity; destruct (H1 i p deadline); contradiction. }
    rewrite W. sf. split; reflexivity.
  - intros H. assert (W : waiting s <> 0).
    { rewrite I2. destruct H as [(u & p & d & [H|H])|(u & H)].
      - pose proof (number_ge waits _ _ _ H) as G. cbn [waits] in G. lia.
      - pose proof (number_ge waits _ _ _ H) as G. cbn [waits] in G. lia.
      - unfold raised. clear -H. induction (history s) as [|x ev IH]; [destruct H|]. cbn [filter]. destruct H as [->|H]; [cbn [List.length]; lia|]. specialize (IH H). destruct x; cbn [List.length]; lia. }
    destruct (waiting s) as [|w] eqn:Ew; [congruence|]. apply (spinning_stuck _ t). unfold spinning; sf.
    pose proof (number_upd spins _ _ BSpin _ Ht) as G. cbn [spins] in G. rewrite (number_map spins wake _ spins_wake).
    refine (conj _ (conj eq_refl (conj _ _))); [rewrite nth_error_map, (nth_upd_same _ _ _ _ Ht); reflexivity|lia|lia].
Qed.
Lemma reach_steps e v n allowed s ls s' : reachable e v n allowed s -> Forall allowed ls -> steps s ls = Some s' -> reachable e v n allowed s'.
Proof.
  revert s. induction ls as [|l ls IH]; intros s R F E; cbn [steps] in E; [injection E as <-; exact R|].
  destruct (step s l) as [m|] eqn:El; [|discriminate]. inversion F; subst. eauto using r_step.
Qed.

Lemma progress e v n s : reachable e v n plain s ->
  (exists bound, forall ls s', Forall own_step ls -> steps s ls = Some s' -> List.length ls <= bound) /\
  (forall ls s', Forall own_step ls -> steps s ls = Some s' -> at_rest s' -> forall t q, nth_error (threads s') t = Some q ->
     q = Idle \/ exists p d, q = WSleep p d /\ enabled s' = true /\ p (value s') = Some false /\ match d with Some x => (now s' < x)%N | None => True end).
Proof.
  intro R. split.
  - exists (work s). intros ls s' F E. destruct (work_runs _ _ _ _ _ _ R F E). lia.
  - intros ls s' F E A t q Ht. destruct (work_runs _ _ _ _ _ _ R F E) as [_ R']. destruct (rest _ _ _ _ R' A _ _ Ht) as [H|(p & d & H1 & H2 & H3 & H4)]; [left; exact H|].
    right. exists p, d. refine (conj H1 (conj H2 (conj H3 _))). destruct d as [x|]; [|exact Logic.I]. cbn [expired] in H4. apply N.leb_gt in H4. exact H4.
Qed.

(** ** The conditions *)
Lemma waits_unique s t p q : waits_for s t p -> waits_for s t q -> p = q.
Proof. intros [(d & H)|[(d & H)|(d & H)]] [(d' & K)|[(d' & K)|(d' & K)]]; congruence. Qed.

Lemma conditions e v n s l s' t x : reachable e v n anything s -> step s l = Some s' -> history s' = VWaited t ConditionMet :: history s ->
  (waits_for s t (equal_to x) -> value s' = x) /\ (waits_for s t (greater_equal x) -> (value s' >= x)%Z) /\
  (waits_for s t (greater x) -> (value s' > x)%Z) /\ (waits_for s t is_open -> value s' <> 0%Z) /\ ~ waits_for s t blank.
Proof.
  intros R E H. destruct (reason_of _ _ _ _ _ _ _ _ _ R E H) as (p & W & _ & V & _ & C & _). destruct (proj1 C eq_refl) as [_ T]. rewrite V.
  repeat split; intros Q; pose proof (waits_unique _ _ _ _ W Q) as ->; unfold equal_to, greater_equal, greater, is_open, blank in T; try (injection T as T).
  - apply Z.eqb_eq in T. congruence.
  - apply Z.leb_le in T. apply Z.le_ge. exact T.
  - apply Z.ltb_lt in T. apply Z.lt_gt. exact T.
  - intros Z0. rewrite Z0 in T. discriminate.
  - discriminate.
Qed.

Lemma asleep_conditions e v n s t d x : reachable e v n anything s ->
  (nth_error (threads s) t = Some (WSleep (equal_to x) d) -> value s <> x) /\ (nth_error (threads s) t = Some (WSleep (greater_equal x) d) -> (value s < x)%Z) /\
  (nth_error (threads s) t = Some (WSleep (greater x) d) -> (value s <= x)%Z) /\ (nth_error (threads s) t = Some (WSleep is_open d) -> value s = 0%Z).
Proof.
  intros R. repeat split; intros Q; destruct (asleep _ _ _ _ _ _ _ _ R Q) as [_ T]; unfold equal_to, greater_equal, greater, is_open in T; injection T as T.
  - apply Z.eqb_neq in T. congruence.
  - apply Z.leb_gt in T. exact T.
  - apply Z.ltb_ge in T. exact T.
  - apply Bool.negb_false_iff, Z.eqb_eq in T. exact T.
Qed.
