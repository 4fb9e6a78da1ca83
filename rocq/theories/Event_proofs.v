(** Proofs about event handlers. *)
From Coq Require Import ZifyBool ZifyNat ZifyN.
From Verif Require Import Event_model Event_spec.
Local Arguments Nat.eqb : simpl never.
Local Arguments Nat.leb : simpl never.

Ltac crack F :=
  match type of F with fstep ?x ?t ?f = Some ?e =>
    destruct f as [? ?|? ?|? ?|? ?|? ?|?|?|?|?|?|?|?|?|? ?|? ?|? ?|? ?|? ?|?|?|?|?|?|? [?|?]|? ?|?|?|?]; cbn [fstep on] in *;
    repeat match type of F with
    | context [rlock ?m ?t] => destruct (rlock m t) eqn:?
    | context [if ?b then _ else _] => destruct b eqn:?
    | context [match callback ?y with _ => _ end] => destruct (callback y) eqn:?
    end; try discriminate F; injection F as F; subst e
  end.

Definition one (b : bool) : nat := if b then 1 else 0.
Definition total (g : frame -> nat) (s : estate) : nat := number_of (number_of g) (stacks s).

Lemma put_same f h x : put f h x h = x.
Proof. unfold put. rewrite Nat.eqb_refl. reflexivity. Qed.
Lemma put_other f h x h' : h' <> h -> put f h x h' = f h'.
Proof. unfold put. destruct (Nat.eqb_spec h' h); congruence. Qed.

Lemma number_app {A} (g : A -> nat) a b : number_of g (a ++ b) = number_of g a + number_of g b.
Proof. induction a as [|x a IH]; [reflexivity|]. unfold number_of in *. cbn. lia. Qed.
Lemma number_cons {A} (g : A -> nat) x b : number_of g (x :: b) = g x + number_of g b.
Proof. reflexivity. Qed.
Lemma number_map {A} (g : A -> nat) (w : A -> A) l : (forall x, g (w x) = g x) -> number_of g (map w l) = number_of g l.
Proof. intros H. induction l as [|x l IH]; [reflexivity|]. unfold number_of in *. cbn. rewrite H. lia. Qed.

(** [g] does not see whether a thread that waits has been woken *)
Definition blind (g : frame -> nat) : Prop := forall h f, g (wake h f) = g f.

Lemma wake_nth h (b : bool) l u fs : nth_error (wake_all h b l) u = Some fs -> exists fs0, nth_error l u = Some fs0 /\ fs = if b then map (wake h) fs0 else fs0.
Proof.
  unfold wake_all. destruct b; [|eauto]. rewrite nth_error_map. destruct (nth_error l u) as [fs0|]; cbn; [|discriminate]. intros H. injection H as <-. eauto.
Qed.
Lemma wake_nth_of h (b : bool) l u fs0 : nth_error l u = Some fs0 -> nth_error (wake_all h b l) u = Some (if b then map (wake h) fs0 else fs0).
Proof. intros H. unfold wake_all. destruct b; [|exact H]. rewrite nth_error_map, H. reflexivity. Qed.
Lemma wake_none h b l u : nth_error (wake_all h b l) u = None <-> nth_error l u = None.
Proof. unfold wake_all. destruct b; [|tauto]. rewrite nth_error_map. destruct (nth_error l u); cbn; split; congruence. Qed.
Lemma blind_wake g h (b : bool) fs : blind g -> number_of g (if b then map (wake h) fs else fs) = number_of g fs.
Proof. intros B. destruct b; [|reflexivity]. apply number_map. apply B. Qed.
Lemma blind_total g h b l : blind g -> number_of (number_of g) (wake_all h b l) = number_of (number_of g) l.
Proof.
  intros B. unfold wake_all. destruct b; [|reflexivity]. apply number_map. intros fs. apply number_map. apply B.
Qed.

(** ** One step *)
Lemma run_inv s t s' : estep s (Run t) = Some s' -> exists f rest e, nth_error (stacks s) t = Some (f :: rest) /\ fstep (hs s (on f)) t f = Some e /\
  s' = {| hs := put (hs s) (on f) (handler_now e); stacks := wake_all (on f) (wakes e) (upd (stacks s) t (frames e ++ rest));
          clobbered := clobbered s || (assigns e && existsb (in_callback (on f)) rest); history := happens e ++ history s |}.
Proof.
  cbn. destruct (nth_error (stacks s) t) as [[|f rest]|] eqn:P; try discriminate. destruct (fstep (hs s (on f)) t f) as [e|] eqn:F; [|discriminate].
  intros H. injection H as <-. exists f, rest, e. auto.
Qed.

Lemma total_run g s t s' f rest e : blind g -> nth_error (stacks s) t = Some (f :: rest) ->
  stacks s' = wake_all (on f) (wakes e) (upd (stacks s) t (frames e ++ rest)) -> total g s' + g f = total g s + number_of g (frames e).
Proof.
  intros B P S. unfold total. rewrite S, blind_total by exact B. pose proof (number_upd (number_of g) _ _ (frames e ++ rest) _ P) as H.
  rewrite number_app, number_cons in H. lia.
Qed.
Lemma total_call g s t fs f : nth_error (stacks s) t = Some fs -> number_of (number_of g) (upd (stacks s) t (f :: fs)) = total g s + g f.
Proof. intros P. unfold total. pose proof (number_upd (number_of g) _ _ (f :: fs) _ P) as H. rewrite number_cons in H. lia. Qed.

(** ** Locks *)
Definition he (h : nat) (f : frame) : nat :=
  match f with
  | SLockI h' _ | SSet h' _ | SAssign h' _ | SUnlockE h' _ | UTest h' | ULockI h' | UClear h' | UAssign h' | UNotify h' | UCheck h' | UUnlockE h' => one (h' =? h)
  | _ => 0
  end.
Definition hi (h : nat) (f : frame) : nat :=
  match f with
  | SSet h' _ | SAssign h' _ | UClear h' | UAssign h' | ETest h' | ECallback h' _ | EForward h' _ | ECount h' | ENotify h' | EUnlockI h' => one (h' =? h)
  | _ => 0
  end.
Definition holds (m : rmutex) (t : nat) : nat := match m with Some (u, d) => if u =? t then d else 0 | None => 0 end.
Definition mine (g : frame -> nat) (st : list (list frame)) (t : nat) : nat := match nth_error st t with Some fs => number_of g fs | None => 0 end.
Definition lock_ok (m : rmutex) (g : frame -> nat) (st : list (list frame)) : Prop := (forall t, holds m t = mine g st t) /\ (forall u d, m = Some (u, d) -> d <> 0).

Lemma blind_he h : blind (he h).
Proof. intros h' f. destruct f; cbn; try reflexivity. destruct (h0 =? h'); reflexivity. Qed.
Lemma blind_hi h : blind (hi h).
Proof. intros h' f. destruct f; cbn; try reflexivity. destruct (h0 =? h'); reflexivity. Qed.

Lemma mine_wake g h b st t : blind g -> mine g (wake_all h b st) t = mine g st t.
Proof.
  intros B. unfold mine. destruct (nth_error st t) as [fs|] eqn:P.
  - rewrite (wake_nth_of h b _ _ _ P). apply blind_wake. exact B.
  - rewrite (proj2 (wake_none h b st t) P). reflexivity.
Qed.
Lemma mine_upd_same g st t fs fs' : nth_error st t = Some fs -> mine g (upd st t fs') t = number_of g fs'.
Proof. intros P. unfold mine. rewrite (nth_upd_same _ _ _ _ P). reflexivity. Qed.
Lemma mine_upd_other g st t u fs' : u <> t -> mine g (upd st t fs') u = mine g st u.
Proof. intros N. unfold mine. rewrite nth_upd_other by congruence. reflexivity. Qed.

Lemma rlock_holds m t m' : rlock m t = Some m' -> (forall u d, m = Some (u, d) -> d <> 0) ->
  (forall u, holds m' u = holds m u + one (t =? u)) /\ (forall u d, m' = Some (u, d) -> d <> 0).
Proof.
  unfold rlock. destruct m as [[v d]|].
  - destruct (Nat.eqb_spec v t) as [->|]; [|discriminate]. intros H Z. injection H as <-. split.
    + intros u. cbn. destruct (t =? u); cbn; lia.
    + intros u d' E. injection E as <- <-. lia.
  - intros H Z. injection H as <-. split; [intros u; cbn; destruct (t =? u); reflexivity|]. intros u d E. injection E as <- <-. lia.
Qed.
Lemma runlock_holds m t : holds m t <> 0 -> (forall u, holds (runlock m) u + one (t =? u) = holds m u) /\ (forall u d, runlock m = Some (u, d) -> d <> 0).
Proof.
  destruct m as [[v d]|]; [|cbn; congruence]. cbn. destruct (Nat.eqb_spec v t) as [->|]; [|congruence]. intros Z. destruct d as [|[|d]]; [congruence| |]; cbn.
  - split; [|discriminate]. intros u. destruct (t =? u); reflexivity.
  - split; [intros u; destruct (t =? u); cbn; lia|]. intros u d' E. injection E as <- <-. lia.
Qed.

(** the mutexes after a step of a function, in terms of what it held *)
Lemma fstep_lock x t f e : fstep x t f = Some e ->
  (forall u d, emutex x = Some (u, d) -> d <> 0) -> (forall u d, imutex x = Some (u, d) -> d <> 0) ->
  (he (on f) f <= holds (emutex x) t) -> (hi (on f) f <= holds (imutex x) t) ->
  ((forall u, holds (emutex (handler_now e)) u + one (t =? u) * he (on f) f = holds (emutex x) u + one (t =? u) * number_of (he (on f)) (frames e)) /\ (forall u d, emutex (handler_now e) = Some (u, d) -> d <> 0)) /\
  ((forall u, holds (imutex (handler_now e)) u + one (t =? u) * hi (on f) f = holds (imutex x) u + one (t =? u) * number_of (hi (on f)) (frames e)) /\ (forall u d, imutex (handler_now e) = Some (u, d) -> d <> 0)).
Proof.
  intros F ZE ZI HE HI.
  assert (N0 : forall g : frame -> nat, number_of g [] = 0) by reflexivity.
  assert (N1 : forall (g : frame -> nat) a, number_of g [a] = g a) by (intros; unfold number_of; cbn; lia).
  assert (N2 : forall (g : frame -> nat) a b, number_of g [a; b] = g a + g b) by (intros; unfold number_of; cbn; lia).
  assert (one1 : forall h, one (h =? h) = 1) by (intros; rewrite Nat.eqb_refl; reflexivity).
  destruct f as [h c|h c|h c|h c|h c|h|h|h|h|h|h|h|h|h n|h n|h n|h n|h n|h|h|h|h|h|h [k|h']|h h'|h|h|h]; cbn [fstep on] in *;
    repeat match goal with
    | H : match rlock ?m ?t with _ => _ end = Some _ |- _ => let R := fresh "R" in destruct (rlock m t) eqn:R; [|discriminate]
    | H : Some _ = Some _ |- _ => injection H as <-
    | H : None = Some _ |- _ => discriminate
    | |- context [if ?b then _ else _] => destruct b eqn:?
    | H : context [if ?b then _ else _] |- _ => destruct b eqn:?
    | H : context [match callback x with _ => _ end] |- _ => destruct (callback x) eqn:?
    end;
    cbn [handler_now frames quietly saying with_e with_i with_set with_callback with_count with_waiting emutex imutex] in *;
    rewrite ?N0, ?N1, ?N2; cbn [he hi] in *; rewrite ?one1 in *;
    try (match goal with R : rlock (emutex x) t = Some _ |- _ => destruct (rlock_holds _ _ _ R ZE) as [A B] end);
    try (match goal with R : rlock (imutex x) t = Some _ |- _ => destruct (rlock_holds _ _ _ R ZI) as [A B] end);
    try (match goal with |- context [runlock (emutex x)] => destruct (runlock_holds (emutex x) t) as [A B]; [lia|] end);
    try (match goal with |- context [runlock (imutex x)] => destruct (runlock_holds (imutex x) t) as [A B]; [lia|] end);
    (split; split; auto); intros u; try (specialize (A u)); try lia.
Qed.

Record locks (s : estate) : Prop := {
  l_e : forall h, lock_ok (emutex (hs s h)) (he h) (stacks s);
  l_i : forall h, lock_ok (imutex (hs s h)) (hi h) (stacks s)
}.

Lemma lock_put_other m g st t f fs' rest h b : lock_ok m g st -> blind g -> nth_error st t = Some (f :: rest) -> g f = 0 -> number_of g fs' = 0 ->
  lock_ok m g (wake_all h b (upd st t (fs' ++ rest))).
Proof.
  intros [A Z] B P G F. split; [|exact Z]. intros u. rewrite mine_wake by exact B. rewrite A. destruct (Nat.eq_dec u t) as [->|N].
  - rewrite (mine_upd_same _ _ _ _ _ P). unfold mine. rewrite P, number_app, number_cons. lia.
  - rewrite mine_upd_other by exact N. reflexivity.
Qed.

Lemma he_other h f : on f <> h -> he h f = 0.
Proof. destruct f; cbn; intros N; try reflexivity; destruct (Nat.eqb_spec h0 h); cbn; congruence. Qed.
Lemma hi_other h f : on f <> h -> hi h f = 0.
Proof. destruct f; cbn; intros N; try reflexivity; destruct (Nat.eqb_spec h0 h); cbn; congruence. Qed.

(** the functions that replace a function are on the same handler, but for the one that is called by
    the callback of a MultipleEventHandler, which holds nothing yet *)
Lemma frames_on x t f e : fstep x t f = Some e -> forall g, In g (frames e) -> on g = on f \/ (exists h h', f = ECallback h (Forward h') /\ g = ELockI h').
Proof.
  intros F g G. destruct f as [h c|h c|h c|h c|h c|h|h|h|h|h|h|h|h|h n|h n|h n|h n|h n|h|h|h|h|h|h [k|h']|h h'|h|h|h]; cbn [fstep on] in *;
    repeat match goal with
    | H : match rlock ?m ?t with _ => _ end = Some _ |- _ => destruct (rlock m t); [|discriminate]
    | H : Some _ = Some _ |- _ => injection H as <-
    | H : None = Some _ |- _ => discriminate
    | H : context [if ?b then _ else _] |- _ => destruct b
    | H : context [match callback x with _ => _ end] |- _ => destruct (callback x)
    end; cbn in G; repeat (destruct G as [<-|G]; [cbn; eauto|]); destruct G.
Qed.
Lemma frames_other h x t f e (g : nat -> frame -> nat) : fstep x t f = Some e -> on f <> h -> (forall f', on f' <> h -> g h f' = 0) -> (forall k, g h (ELockI k) = 0) -> number_of (g h) (frames e) = 0.
Proof.
  intros F N O L. apply number_zero. intros i y Y. apply nth_error_In in Y. destruct (frames_on _ _ _ _ F _ Y) as [H|(a & b & _ & ->)]; [|apply L].
  apply O. congruence.
Qed.

Lemma locks_init n : locks (einit n).
Proof.
  split; intros h; (split; [|discriminate]); intros t; cbn; unfold mine; destruct (nth_error (repeat [] n) t) as [fs|] eqn:P; auto; apply nth_all in P; subst; reflexivity.
Qed.

Lemma mine_top g st t f rest : nth_error st t = Some (f :: rest) -> g f <= mine g st t.
Proof. intros P. unfold mine. rewrite P, number_cons. lia. Qed.

Lemma lock_same m m' g st t f fs' rest h b : lock_ok m g st -> blind g -> nth_error st t = Some (f :: rest) ->
  (forall u, holds m' u + one (t =? u) * g f = holds m u + one (t =? u) * number_of g fs') -> (forall u d, m' = Some (u, d) -> d <> 0) ->
  lock_ok m' g (wake_all h b (upd st t (fs' ++ rest))).
Proof.
  intros [A Z] B P H Z'. split; [|exact Z']. intros u. rewrite mine_wake by exact B. specialize (H u). rewrite A in H. destruct (Nat.eq_dec u t) as [->|N].
  - rewrite Nat.eqb_refl in H. rewrite (mine_upd_same _ _ _ _ _ P). unfold mine in H. rewrite P, number_cons in H. rewrite number_app. cbn in H. lia.
  - rewrite mine_upd_other by congruence. destruct (Nat.eqb_spec t u); [congruence|]. cbn in H. lia.
Qed.

Lemma locks_step s l s' : locks s -> estep s l = Some s' -> locks s'.
Proof.
  intros [LE LI] E. destruct l as [t c|t|t].
  - cbn in E. destruct (nth_error (stacks s) t) as [fs|] eqn:P; [|discriminate]. destruct (may_call fs); [|discriminate]. injection E as <-.
    assert (HE : forall h, he h (enter c) = 0) by (destruct c; reflexivity). assert (HI : forall h, hi h (enter c) = 0) by (destruct c; reflexivity).
    split; intros h; cbn [hs stacks]; [destruct (LE h) as [A Z]|destruct (LI h) as [A Z]]; (split; [|exact Z]); intros u; rewrite A;
      (destruct (Nat.eq_dec u t) as [->|N]; [|rewrite mine_upd_other by exact N; reflexivity]); rewrite (mine_upd_same _ _ _ _ _ P); unfold mine; rewrite P, number_cons, ?HE, ?HI; reflexivity.
  - destruct (run_inv _ _ _ E) as (f & rest & e & P & F & ->). pose proof (LE (on f)) as [AE ZE]. pose proof (LI (on f)) as [AI ZI].
    destruct (fstep_lock _ _ _ _ F ZE ZI) as [[E1 E2] [I1 I2]].
    { rewrite AE. apply (mine_top _ _ _ _ _ P). } { rewrite AI. apply (mine_top _ _ _ _ _ P). }
    split; intros h; cbn [hs stacks]; (destruct (Nat.eq_dec h (on f)) as [->|N]; [rewrite put_same|rewrite put_other by exact N]).
    + eapply lock_same; eauto using blind_he.
    + apply lock_put_other with (f := f); auto using blind_he. * apply he_other. congruence. * eapply frames_other; eauto. apply he_other.
    + eapply lock_same; eauto using blind_hi.
    + apply lock_put_other with (f := f); auto using blind_hi. * apply hi_other. congruence. * eapply frames_other; eauto. apply hi_other.
  - cbn in E. destruct (nth_error (stacks s) t) as [[|[] rest]|] eqn:P; try discriminate. injection E as <-.
    split; intros h'; cbn [hs stacks]; [destruct (LE h') as [A Z]|destruct (LI h') as [A Z]]; (split; [|exact Z]); intros u; rewrite A;
      (destruct (Nat.eq_dec u t) as [->|N]; [|rewrite mine_upd_other by exact N; reflexivity]); rewrite (mine_upd_same _ _ _ _ _ P); unfold mine; rewrite P, !number_cons; reflexivity.
Qed.

(** who holds a mutex is alone *)
Lemma alone m g st t u : lock_ok m g st -> mine g st t <> 0 -> mine g st u <> 0 -> t = u.
Proof.
  intros [A _] T U. rewrite <- A in T, U. destruct m as [[v d]|]; cbn in *; [|congruence]. destruct (Nat.eqb_spec v t); [|congruence]. destruct (Nat.eqb_spec v u); congruence.
Qed.
Lemma free_or_owner m g st t : lock_ok m g st -> (exists m', rlock m t = Some m') \/ (exists u fs, u <> t /\ nth_error st u = Some fs /\ number_of g fs <> 0).
Proof.
  intros [A Z]. unfold rlock. destruct m as [[v d]|]; [|eauto]. destruct (Nat.eqb_spec v t) as [->|N]; [eauto|]. right. exists v. specialize (A v). cbn in A. rewrite Nat.eqb_refl in A.
  specialize (Z v d eq_refl). unfold mine in A. destruct (nth_error st v) as [fs|] eqn:P; [|congruence]. exists fs. split; [exact N|]. split; [reflexivity|congruence].
Qed.

(** ** Stacks *)
Definition base (f : frame) : Prop := match f with ECallback _ (User _) | EForward _ _ => True | _ => False end.
Definition shape (s : estate) : Prop := forall t f rest, nth_error (stacks s) t = Some (f :: rest) -> forall g, In g rest -> base g.

Lemma wake_base h f : base (wake h f) <-> base f.
Proof. destruct f; cbn; try tauto. destruct (h0 =? h); cbn; tauto. Qed.

Lemma frames_shape x t f e : fstep x t f = Some e -> frames e = [] \/ (exists g, frames e = [g]) \/ exists h h', f = ECallback h (Forward h') /\ frames e = [ELockI h'; EForward h h'].
Proof.
  intros F. destruct f as [h c|h c|h c|h c|h c|h|h|h|h|h|h|h|h|h n|h n|h n|h n|h n|h|h|h|h|h|h [k|h']|h h'|h|h|h]; cbn [fstep on] in *;
    repeat match goal with
    | H : match rlock ?m ?t with _ => _ end = Some _ |- _ => destruct (rlock m t); [|discriminate]
    | H : Some _ = Some _ |- _ => injection H as <-
    | H : None = Some _ |- _ => discriminate
    | H : context [if ?b then _ else _] |- _ => destruct b
    | H : context [match callback x with _ => _ end] |- _ => destruct (callback x)
    | |- context [if ?b then _ else _] => destruct b
    end; cbn; eauto 8.
Qed.

Lemma shape_step s l s' : shape s -> estep s l = Some s' -> shape s'.
Proof.
  intros S E u f0 rest0 P0. destruct l as [t c|t|t].
  - cbn in E. destruct (nth_error (stacks s) t) as [fs|] eqn:P; [|discriminate]. destruct (may_call fs) eqn:M; [|discriminate]. injection E as <-. cbn in P0.
    apply nth_upd in P0. destruct P0 as [[-> P0]|[_ P0]]; [|eauto]. injection P0 as -> ->. intros g G. destruct fs as [|f fs]; [destruct G|].
    destruct G as [<-|G]; [|eauto]. destruct f; try discriminate M. destruct c0; [exact I|discriminate].
  - destruct (run_inv _ _ _ E) as (f & rest & e & P & F & ->). cbn [stacks] in P0. apply wake_nth in P0. destruct P0 as (fs0 & P0 & EQ).
    assert (X : exists f1 rest1, fs0 = f1 :: rest1 /\ forall g, In g rest0 -> exists g1, In g1 rest1 /\ (g = g1 \/ g = wake (on f) g1)).
    { destruct (wakes e).
      - destruct fs0 as [|f1 rest1]; [discriminate|]. injection EQ as _ ->. exists f1, rest1. split; [reflexivity|]. intros g G. apply in_map_iff in G. destruct G as (g1 & <- & G). eauto.
      - subst fs0. exists f0, rest0. split; [reflexivity|]. intros g G. eauto. }
    destruct X as (f1 & rest1 & -> & X). intros g G. destruct (X _ G) as (g1 & G1 & EQ1).
    assert (B : base g1).
    { apply nth_upd in P0. destruct P0 as [[-> P0]|[_ P0]]; [|eauto]. destruct (frames_shape _ _ _ _ F) as [FE|[[g0 FE]|(h & h' & -> & FE)]]; rewrite FE in P0; cbn in P0.
      - subst rest. eapply S; [exact P|]. right. exact G1.
      - injection P0 as _ <-. eapply S; eauto.
      - injection P0 as _ ->. destruct G1 as [<-|G1]; [exact I|eapply S; eauto]. }
    destruct EQ1 as [-> | ->]; [exact B|]. apply wake_base. exact B.
  - cbn in E. destruct (nth_error (stacks s) t) as [[|[] rest]|] eqn:P; try discriminate. injection E as <-. cbn in P0.
    apply nth_upd in P0. destruct P0 as [[-> P0]|[_ P0]]; [|eauto]. injection P0 as -> ->. eauto.
Qed.
Lemma shape_init n : shape (einit n).
Proof. intros t f rest P. cbn in P. apply nth_all in P. discriminate. Qed.

(** ** The innermost functions *)
Definition top (s : estate) (t : nat) (f : frame) : Prop := exists rest, nth_error (stacks s) t = Some (f :: rest).
Definition wk (h : nat) (b : bool) (f : frame) : frame := if b then wake h f else f.

Lemma top_one s t f g : top s t f -> top s t g -> f = g.
Proof. intros [r P] [r' Q]. congruence. Qed.

(** what a step does, without the stacks *)
Inductive next (s : estate) : elabel -> estate -> Prop :=
| n_call t c fs s' : nth_error (stacks s) t = Some fs -> may_call fs = true -> hs s' = hs s -> clobbered s' = clobbered s -> history s' = VCall t c :: history s ->
    stacks s' = upd (stacks s) t (enter c :: fs) -> next s (Call t c) s'
| n_run t f rest e s' : nth_error (stacks s) t = Some (f :: rest) -> fstep (hs s (on f)) t f = Some e ->
    hs s' = put (hs s) (on f) (handler_now e) -> clobbered s' = clobbered s || (assigns e && existsb (in_callback (on f)) rest) -> history s' = happens e ++ history s ->
    stacks s' = wake_all (on f) (wakes e) (upd (stacks s) t (frames e ++ rest)) -> next s (Run t) s'
| n_spur t h n rest s' : nth_error (stacks s) t = Some (WBlocked h n :: rest) -> hs s' = hs s -> clobbered s' = clobbered s -> history s' = history s ->
    stacks s' = upd (stacks s) t (WNotified h n :: rest) -> next s (Spurious t) s'.

Lemma estep_next s l s' : estep s l = Some s' -> next s l s'.
Proof.
  destruct l as [t c|t|t]; intros E.
  - cbn in E. destruct (nth_error (stacks s) t) as [fs|] eqn:P; [|discriminate]. destruct (may_call fs) eqn:M; [|discriminate]. injection E as <-. econstructor; eauto.
  - destruct (run_inv _ _ _ E) as (f & rest & e & P & F & ->). econstructor; eauto.
  - cbn in E. destruct (nth_error (stacks s) t) as [[|[] rest]|] eqn:P; try discriminate. injection E as <-. econstructor; eauto.
Qed.

Lemma top_others s t f rest e s' u g : nth_error (stacks s) t = Some (f :: rest) -> stacks s' = wake_all (on f) (wakes e) (upd (stacks s) t (frames e ++ rest)) -> u <> t ->
  top s u g -> top s' u (wk (on f) (wakes e) g).
Proof.
  intros P S N [r Q]. unfold top. rewrite S. assert (Q' : nth_error (upd (stacks s) t (frames e ++ rest)) u = Some (g :: r)) by (rewrite nth_upd_other by congruence; exact Q).
  rewrite (wake_nth_of _ _ _ _ _ Q'). unfold wk. destruct (wakes e); cbn; eauto.
Qed.

Lemma top_run s t f rest e s' u g : shape s -> nth_error (stacks s) t = Some (f :: rest) -> fstep (hs s (on f)) t f = Some e ->
  stacks s' = wake_all (on f) (wakes e) (upd (stacks s) t (frames e ++ rest)) -> top s' u g ->
  (u = t /\ ((exists fs, frames e = g :: fs) \/ (frames e = [] /\ base g))) \/ (u <> t /\ exists g0, top s u g0 /\ g = wk (on f) (wakes e) g0).
Proof.
  intros SH P F S [r Q]. rewrite S in Q. apply wake_nth in Q. destruct Q as (fs0 & Q & EQ). apply nth_upd in Q. destruct Q as [[-> ->]|[N Q]].
  - left. split; [reflexivity|]. destruct (frames_shape _ _ _ _ F) as [FE|[[g0 FE]|(h & h' & Ef & FE)]]; rewrite FE in EQ.
    + right. split; [exact FE|]. cbn in EQ. assert (X : exists g1, In g1 rest /\ (g = g1 \/ g = wake (on f) g1)).
      { destruct (wakes e); destruct rest as [|g1 rest1]; try discriminate; injection EQ as -> ->; exists g1; split; auto; left; reflexivity. }
      destruct X as (g1 & I & [-> | ->]); [|apply wake_base]; eapply SH; eauto.
    + left. exists []. cbn in EQ. destruct (wakes e) eqn:W; injection EQ as -> ->; [|exact FE].
      rewrite FE. f_equal. destruct f as [h c|h c|h c|h c|h c|h|h|h|h|h|h|h|h|h n|h n|h n|h n|h n|h|h|h|h|h|h [k|h']|h h'|h|h|h]; cbn [fstep on] in *;
        repeat match goal with
        | H : match rlock ?m ?t with _ => _ end = Some _ |- _ => destruct (rlock m t); [|discriminate]
        | H : Some _ = Some _ |- _ => injection H as <-
        | H : None = Some _ |- _ => discriminate
        | H : context [if ?b then _ else _] |- _ => destruct b
        | H : context [match callback ?x with _ => _ end] |- _ => destruct (callback x)
        end; cbn in *; try discriminate; injection FE as <-; reflexivity.
    + subst f. cbn in F. injection F as <-. cbn in *. injection EQ as -> ->. eauto.
  - right. split; [exact N|]. unfold wk. destruct (wakes e).
    + destruct fs0 as [|g0 r0]; [discriminate|]. injection EQ as -> ->. exists g0. split; [exists r0; exact Q|reflexivity].
    + subst fs0. exists g. split; [exists r; exact Q|reflexivity].
Qed.

Lemma top_call s t c fs s' u g : nth_error (stacks s) t = Some fs -> stacks s' = upd (stacks s) t (enter c :: fs) -> top s' u g ->
  (u = t /\ g = enter c) \/ (u <> t /\ top s u g).
Proof.
  intros P S [r Q]. rewrite S in Q. apply nth_upd in Q. destruct Q as [[-> Q]|[N Q]]; [left; split; congruence|right; split; [exact N|exists r; exact Q]].
Qed.
Lemma top_spur s t h n rest s' u g : nth_error (stacks s) t = Some (WBlocked h n :: rest) -> stacks s' = upd (stacks s) t (WNotified h n :: rest) -> top s' u g ->
  (u = t /\ g = WNotified h n) \/ (u <> t /\ top s u g).
Proof.
  intros P S [r Q]. rewrite S in Q. apply nth_upd in Q. destruct Q as [[-> Q]|[N Q]]; [left; split; congruence|right; split; [exact N|exists r; exact Q]].
Qed.
Lemma top_upd_other s t x s' u g : stacks s' = upd (stacks s) t x -> u <> t -> top s u g -> top s' u g.
Proof. intros S N [r Q]. exists r. rewrite S, nth_upd_other by congruence. exact Q. Qed.

Lemma top_he s t f h : top s t f -> he h f <= mine (he h) (stacks s) t.
Proof. intros [r P]. eapply mine_top; eauto. Qed.
Lemma top_hi s t f h : top s t f -> hi h f <= mine (hi h) (stacks s) t.
Proof. intros [r P]. eapply mine_top; eauto. Qed.
Lemma alone_e s t u f g h : locks s -> top s t f -> top s u g -> he h f <> 0 -> he h g <> 0 -> t = u.
Proof. intros L T U F G. pose proof (top_he _ _ _ h T). pose proof (top_he _ _ _ h U). apply (alone _ _ _ _ _ (l_e _ L h)); lia. Qed.
Lemma alone_i s t u f g h : locks s -> top s t f -> top s u g -> hi h f <> 0 -> hi h g <> 0 -> t = u.
Proof. intros L T U F G. pose proof (top_hi _ _ _ h T). pose proof (top_hi _ _ _ h U). apply (alone _ _ _ _ _ (l_i _ L h)); lia. Qed.

Lemma wk_not_blocked h b g : (forall h' n, g <> WBlocked h' n) -> wk h b g = g.
Proof. intros H. destruct b; [|reflexivity]. destruct g; cbn; auto. destruct (H h0 n eq_refl). Qed.
Lemma wk_inv h b g f : f = wk h b g -> (forall h' n, f <> WNotified h' n) -> g = f.
Proof.
  intros -> H. destruct b; [|reflexivity]. destruct g; try reflexivity. cbn in *. destruct (Nat.eqb_spec h0 h); [|reflexivity]. destruct (H h0 n). reflexivity.
Qed.

(** ** Counting *)
Lemma number_events_app p a b : number p (a ++ b) = number p a + number p b.
Proof. unfold number. rewrite filter_app, app_length. reflexivity. Qed.
Lemma number_events_cons p e b : number p (e :: b) = one (p e) + number p b.
Proof. unfold number. cbn. destruct (p e); reflexivity. Qed.


Lemma fstep_count x t f e : fstep x t f = Some e ->
  (count (handler_now e) = count x /\ forall h, filter (counted h) (happens e) = [] /\ filter (decremented h) (happens e) = [] /\ filter (was_reset h) (happens e) = []) \/
  (happens e = [VCounted t (on f)] /\ count (handler_now e) = N.modulo (count x + 1) M) \/
  (happens e = [VReset t (on f)] /\ count (handler_now e) = 0%N) \/
  (happens e = [VDecrement t (on f)] /\ (0 < count x)%N /\ count (handler_now e) = (count x - 1)%N).
Proof.
  intros F. destruct f as [h c|h c|h c|h c|h c|h|h|h|h|h|h|h|h|h n|h n|h n|h n|h n|h|h|h|h|h|h [k|h']|h h'|h|h|h]; cbn [fstep on] in *;
    repeat match goal with
    | H : match rlock ?m ?t with _ => _ end = Some _ |- _ => destruct (rlock m t); [|discriminate]
    | H : Some _ = Some _ |- _ => injection H as <-
    | H : None = Some _ |- _ => discriminate
    | H : context [if ?b then _ else _] |- _ => destruct b eqn:?
    | H : context [match callback ?x with _ => _ end] |- _ => destruct (callback x)
    | |- context [if ?b then _ else _] => destruct b eqn:?
    end; cbn -[N.modulo]; try (left; split; [reflexivity|]; intros; repeat split; reflexivity); auto.
  - right. right. right. split; [reflexivity|]. split; [|reflexivity]. apply N.ltb_lt. assumption.
Qed.


Record tallied (x : handler) (h : nat) (ev : list event) : Prop := {
  t_low : (count x < M)%N;
  t_mod : N.modulo (count x + nn (decremented h) (since_reset h ev)) M = N.modulo (nn (counted h) (since_reset h ev)) M;
  t_exact : (nn (counted h) (since_reset h ev) < M)%N -> (count x + nn (decremented h) (since_reset h ev) = nn (counted h) (since_reset h ev))%N
}.

Lemma since_skip h a ev : filter (was_reset h) a = [] -> since_reset h (a ++ ev) = a ++ since_reset h ev.
Proof.
  induction a as [|e a IH]; [reflexivity|]. cbn. destruct (was_reset h e); [discriminate|]. intros H. cbn. rewrite IH by exact H. reflexivity.
Qed.

Lemma M_big : (1 < M)%N. Proof. reflexivity. Qed.
Lemma mod_add a b c : N.modulo a M = N.modulo b M -> N.modulo (a + c) M = N.modulo (b + c) M.
Proof. intros H. rewrite <- (N.add_mod_idemp_l a), <- (N.add_mod_idemp_l b), H by (intro X; discriminate X). reflexivity. Qed.

Lemma tallied_step x t f e h ev : tallied x h ev -> fstep x t f = Some e -> on f = h -> tallied (handler_now e) h (happens e ++ ev).
Proof.
  intros [L MD EX] F O. destruct (fstep_count _ _ _ _ F) as [[C H]|[[H C]|[[H C]|[H [P C]]]]].
  - destruct (H h) as (H1 & H2 & H3). assert (N1 : forall a, nn (counted h) (happens e ++ a) = nn (counted h) a) by (intros a; unfold nn, number; rewrite filter_app, H1; reflexivity).
    assert (N2 : forall a, nn (decremented h) (happens e ++ a) = nn (decremented h) a) by (intros a; unfold nn, number; rewrite filter_app, H2; reflexivity).
    split; rewrite C, ?since_skip, ?N1, ?N2 by exact H3; auto.
  - rewrite H, O. cbn [app]. assert (SR : since_reset h (VCounted t h :: ev) = VCounted t h :: since_reset h ev) by reflexivity.
    assert (N1 : nn (decremented h) (VCounted t h :: since_reset h ev) = nn (decremented h) (since_reset h ev)) by reflexivity.
    assert (N2 : nn (counted h) (VCounted t h :: since_reset h ev) = (nn (counted h) (since_reset h ev) + 1)%N).
    { unfold nn. rewrite number_events_cons. cbn [counted]. rewrite Nat.eqb_refl. cbn [one]. lia. }
    split; rewrite ?SR, ?N1, ?N2, C.
    + apply N.mod_lt. intro X. discriminate X.
    + rewrite N.add_mod_idemp_l by (intro X; discriminate X).
      replace (count x + 1 + nn (decremented h) (since_reset h ev))%N with (count x + nn (decremented h) (since_reset h ev) + 1)%N by lia. apply mod_add. exact MD.
    + intros B. rewrite N.mod_small by lia. lia.
  - rewrite H, O. cbn [app]. split; cbn [since_reset was_reset]; rewrite ?Nat.eqb_refl, C; try reflexivity.
  - rewrite H, O. cbn [app]. assert (SR : since_reset h (VDecrement t h :: ev) = VDecrement t h :: since_reset h ev) by reflexivity.
    assert (N1 : nn (counted h) (VDecrement t h :: since_reset h ev) = nn (counted h) (since_reset h ev)) by reflexivity.
    assert (N2 : nn (decremented h) (VDecrement t h :: since_reset h ev) = (nn (decremented h) (since_reset h ev) + 1)%N).
    { unfold nn. rewrite number_events_cons. cbn [decremented]. rewrite Nat.eqb_refl. cbn [one]. lia. }
    split; rewrite ?SR, ?N1, ?N2, C; [lia| |intros B; specialize (EX B); lia].
    replace (count x - 1 + (nn (decremented h) (since_reset h ev) + 1))%N with (count x + nn (decremented h) (since_reset h ev))%N by lia. exact MD.
Qed.

Lemma happens_on x t f e : fstep x t f = Some e -> forall ev, In ev (happens e) ->
  match ev with
  | VCall _ _ => False
  | VCallback u h _ | VCounted u h | VReset u h | VDecrement u h | VSet u h _ | VUnset u h | VSetDone u h _ | VUnsetDone u h | VWaited u h _ _ | VRead u h _ | VAbort u h => u = t /\ h = on f
  end.
Proof.
  intros F ev I. destruct f as [h c|h c|h c|h c|h c|h|h|h|h|h|h|h|h|h n|h n|h n|h n|h n|h|h|h|h|h|h [k|h']|h h'|h|h|h]; cbn [fstep on] in *;
    repeat match goal with
    | H : match rlock ?m ?t with _ => _ end = Some _ |- _ => destruct (rlock m t); [|discriminate]
    | H : Some _ = Some _ |- _ => injection H as <-
    | H : None = Some _ |- _ => discriminate
    | H : context [if ?b then _ else _] |- _ => destruct b eqn:?
    | H : context [match callback ?x with _ => _ end] |- _ => destruct (callback x)
    | |- context [if ?b then _ else _] => destruct b eqn:?
    end; cbn in I; repeat (destruct I as [<-|I]; [auto|]); destruct I.
Qed.

Lemma tallied_other x h ev t f e y : tallied x h ev -> fstep y t f = Some e -> on f <> h -> tallied x h (happens e ++ ev).
Proof.
  intros [L MD EX] F N.
  assert (Z : forall p, (forall ev, In ev (happens e) -> p ev = false) -> filter p (happens e) = []).
  { intros p. generalize (happens e) as l. induction l as [|a l IH]; intros Z; [reflexivity|]. cbn. rewrite Z by (left; reflexivity). apply IH. intros; apply Z; right; auto. }
  assert (H3 : filter (was_reset h) (happens e) = []). { apply Z. intros ev0 I. pose proof (happens_on _ _ _ _ F _ I) as X. destruct ev0; try reflexivity; cbn. destruct X as [_ ->]. apply Nat.eqb_neq. exact N. }
  assert (H1 : filter (counted h) (happens e) = []). { apply Z. intros ev0 I. pose proof (happens_on _ _ _ _ F _ I) as X. destruct ev0; try reflexivity; cbn. destruct X as [_ ->]. apply Nat.eqb_neq. exact N. }
  assert (H2 : filter (decremented h) (happens e) = []). { apply Z. intros ev0 I. pose proof (happens_on _ _ _ _ F _ I) as X. destruct ev0; try reflexivity; cbn. destruct X as [_ ->]. apply Nat.eqb_neq. exact N. }
  assert (N1 : forall a, nn (counted h) (happens e ++ a) = nn (counted h) a) by (intros a; unfold nn, number; rewrite filter_app, H1; reflexivity).
  assert (N2 : forall a, nn (decremented h) (happens e ++ a) = nn (decremented h) a) by (intros a; unfold nn, number; rewrite filter_app, H2; reflexivity).
  split; rewrite ?since_skip, ?N1, ?N2 by exact H3; auto.
Qed.

Lemma tallied_reach allowed n s : ereachable allowed n s -> forall h, tallied (hs s h) h (history s).
Proof.
  induction 1 as [|s l s' R IH A E]; intros h.
  - split; cbn; try reflexivity.
  - destruct (estep_next _ _ _ E) as [t c fs s1 P MC H _ HI S|t f rest e s1 P F H _ HI S|t h0 n0 rest s1 P H _ HI S]; rewrite H, HI.
    + specialize (IH h). destruct IH as [L MD EX]. split; cbn [since_reset was_reset]; unfold nn in *; rewrite ?number_events_cons; cbn [decremented counted one Nat.add]; auto.
    + destruct (Nat.eq_dec h (on f)) as [->|N]; [rewrite put_same; eapply tallied_step; eauto|rewrite put_other by exact N; eapply tallied_other; eauto].
    + apply IH.
Qed.

(** ** Callbacks called and events counted *)
Lemma blind_uncounted h : blind (uncounted h).
Proof. intros h' f. destruct f; cbn; try reflexivity. destruct (h0 =? h'); reflexivity. Qed.

Lemma fstep_called x t f e h : fstep x t f = Some e ->
  number (called h) (happens e) + uncounted h f = number (counted h) (happens e) + number_of (uncounted h) (frames e).
Proof.
  intros F. crack F; cbn [happens frames quietly saying]; unfold number, number_of; cbn; try reflexivity; match goal with |- context [?a =? h] => destruct (a =? h); reflexivity end.
Qed.

Lemma called_lemma allowed n s : ereachable allowed n s -> forall h, number (called h) (history s) = number (counted h) (history s) + in_progress s h.
Proof.
  unfold in_progress. change (fun s h => number_of (number_of (uncounted h)) (stacks s)) with (fun s h => total (uncounted h) s).
  induction 1 as [|s l s' R IH A E]; intros h.
  - cbn. rewrite number_repeat; reflexivity.
  - specialize (IH h). destruct (estep_next _ _ _ E) as [t c fs s1 P MC H _ HI S|t f rest e s1 P F H _ HI S|t h0 n0 rest s1 P H _ HI S]; rewrite HI.
    + rewrite !number_events_cons. cbn [called counted one]. rewrite S, (total_call _ _ _ _ _ P). assert (X : uncounted h (enter c) = 0) by (destruct c; reflexivity). unfold total. lia.
    + rewrite !number_events_app. pose proof (fstep_called _ _ _ _ h F) as X. pose proof (total_run _ _ _ _ _ _ _ (blind_uncounted h) P S) as Y. unfold total in Y. lia.
    + rewrite S. pose proof (number_upd (number_of (uncounted h)) _ _ (WNotified h0 n0 :: rest) _ P) as Y. rewrite !number_cons in Y. cbn in Y. lia.
Qed.

(** ** Setting and unsetting *)
Definition somb {A} (o : option A) : bool := match o with Some _ => true | None => false end.

Record setting (s : estate) : Prop := {
  s_set : forall h, is_set (hs s h) = somb (last_set h (history s));
  s_sa : forall t h c, top s t (SAssign h c) -> last_set h (history s) = Some c;
  s_ua : forall t h, top s t (UAssign h) -> last_set h (history s) = None;
  s_cb : forall h, callback (hs s h) = last_set h (history s) \/ exists t, (exists c, top s t (SAssign h c)) \/ top s t (UAssign h)
}.

(** the steps that set and unset *)
Lemma fstep_set x t f e : fstep x t f = Some e ->
  (exists h c, f = SSet h c /\ frames e = [SAssign h c] /\ happens e = [VSet t h c] /\ is_set (handler_now e) = true /\ callback (handler_now e) = callback x) \/
  (exists h, f = UClear h /\ frames e = [UAssign h] /\ happens e = [VUnset t h] /\ is_set (handler_now e) = false /\ callback (handler_now e) = callback x) \/
  (is_set (handler_now e) = is_set x /\ (forall h ev, last_set h (happens e ++ ev) = last_set h ev) /\ (forall h, ~ (exists c, In (SAssign h c) (frames e)) /\ ~ In (UAssign h) (frames e)) /\
    ((callback (handler_now e) = callback x /\ (forall h c, f <> SAssign h c) /\ (forall h, f <> UAssign h)) \/ (exists h c, f = SAssign h c /\ callback (handler_now e) = Some c) \/ (exists h, f = UAssign h /\ callback (handler_now e) = None))).
Proof.
  intros F. crack F; cbn;
  first [ left; do 2 eexists; split; [reflexivity|]; repeat split; reflexivity
        | right; left; eexists; split; [reflexivity|]; repeat split; reflexivity
        | right; right; split; [congruence|]; split; [intros; reflexivity|]; split;
          [intros ?; split; [intros [? I]|intros I]; repeat (destruct I as [I|I]; [discriminate|]); exact I|];
          first [left; split; [congruence|]; split; intros; discriminate | right; left; do 2 eexists; split; reflexivity | right; right; eexists; split; reflexivity] ].
Qed.

Lemma last_set_other x t f e h ev : fstep x t f = Some e -> on f <> h -> last_set h (happens e ++ ev) = last_set h ev.
Proof.
  intros F N. destruct (fstep_set _ _ _ _ F) as [(h' & c & -> & _ & -> & _)|[(h' & -> & _ & -> & _)|(_ & X & _)]]; [| |apply X]; cbn in *; destruct (Nat.eqb_spec h' h); congruence.
Qed.

Lemma setting_step s l s' : locks s -> shape s -> setting s -> estep s l = Some s' -> setting s'.
Proof.
  intros LK SH [S1 S2 S3 S4] E. destruct (estep_next _ _ _ E) as [t c fs s1 P MC H _ HI S|t f rest e s1 P F H _ HI S|t h0 n0 rest s1 P H _ HI S].
  - split; rewrite ?H, ?HI; cbn [last_set]; auto.
    + intros u h c' T. destruct (top_call _ _ _ _ _ _ _ P S T) as [[-> X]|[_ X]]; eauto. destruct c; discriminate.
    + intros u h T. destruct (top_call _ _ _ _ _ _ _ P S T) as [[-> X]|[_ X]]; eauto. destruct c; discriminate.
    + intros h. rewrite ?H, ?HI. cbn [last_set]. destruct (S4 h) as [X|(u & X)]; [auto|]. right. exists u.
      assert (N : u <> t). { intros ->. assert (Y : exists g, top s t g /\ ((exists c', g = SAssign h c') \/ g = UAssign h)) by (destruct X as [[c' X]|X]; eauto).
        destruct Y as (g & [r Y] & Z). rewrite P in Y. injection Y as ->. destruct Z as [[c' ->]| ->]; discriminate. }
      destruct X as [[c' X]|X]; [left; exists c'|right]; eapply top_upd_other; eauto.
  - assert (T0 : top s t f) by (exists rest; exact P).
    assert (KEEP : forall h u, u <> t -> ((exists c, top s u (SAssign h c)) \/ top s u (UAssign h)) -> (exists c, top s1 u (SAssign h c)) \/ top s1 u (UAssign h)).
    { intros h u N [[c X]|X]; [left; exists c|right]; apply (top_others _ _ _ _ _ _ _ _ P S N) in X; rewrite wk_not_blocked in X by discriminate; exact X. }
    assert (OTHER : forall h, on f <> h -> callback (hs s1 h) = last_set h (history s1) \/ exists u, (exists c, top s1 u (SAssign h c)) \/ top s1 u (UAssign h)).
    { intros h N. rewrite H, put_other by congruence. rewrite HI, (last_set_other _ _ _ _ _ _ F N). destruct (S4 h) as [X|(u & X)]; [auto|]. right. exists u. apply KEEP; auto. intros ->.
      destruct X as [[c X]|X]; pose proof (top_one _ _ _ _ X T0) as Y; rewrite <- Y in N; cbn in N; congruence. }
    assert (HOLD : forall u g h, u <> t -> top s u g -> hi h g <> 0 -> hi h f <> 0 -> False).
    { intros u g h N X Y Z. apply N. eapply alone_i; eauto. }
    assert (TOPS : forall u g, top s1 u g -> (forall h n, g <> WNotified h n) -> ~ base g -> (u = t /\ exists fs, frames e = g :: fs) \/ (u <> t /\ top s u g)).
    { intros u g T W B. destruct (top_run _ _ _ _ _ _ _ _ SH P F S T) as [[-> [X|[_ X]]]|[N (g0 & X & Y)]]; [left; eauto|destruct (B X)|]. right. split; [exact N|].
      rewrite <- (wk_inv _ _ _ _ Y W). exact X. }
    destruct (fstep_set _ _ _ _ F) as [(h & c & -> & FE & HE & IS & CB)|[(h & -> & FE & HE & IS & CB)|(IS & LS & NF & CB)]]; cbn [on] in *.
    + split.
      * intros h'. rewrite H, HI, HE. cbn. unfold put. rewrite (Nat.eqb_sym h). destruct (Nat.eqb_spec h' h) as [->|N]; [rewrite IS; reflexivity|apply S1].
      * intros u h' c' T. rewrite HI, HE. cbn. destruct (TOPS _ _ T) as [[-> (fs & X)]|[N X]]; [discriminate|intros B; exact B| |].
        -- rewrite FE in X. injection X as -> -> _. rewrite Nat.eqb_refl. reflexivity.
        -- destruct (Nat.eqb_spec h h') as [->|]; [|eauto]. exfalso. apply (HOLD _ _ h' N X); cbn; rewrite Nat.eqb_refl; discriminate.
      * intros u h' T. rewrite HI, HE. cbn. destruct (TOPS _ _ T) as [[-> (fs & X)]|[N X]]; [discriminate|intros B; exact B| |].
        -- rewrite FE in X. discriminate.
        -- destruct (Nat.eqb_spec h h') as [->|]; [|eauto]. exfalso. apply (HOLD _ _ h' N X); cbn; rewrite Nat.eqb_refl; discriminate.
      * intros h'. destruct (Nat.eq_dec h h') as [<-|N]; [|apply OTHER; exact N]. right. exists t. left. exists c. unfold top. rewrite S, FE.
        erewrite wake_nth_of by (eapply nth_upd_same; eauto). destruct (wakes e); cbn; eexists; reflexivity.
    + split.
      * intros h'. rewrite H, HI, HE. cbn. unfold put. rewrite (Nat.eqb_sym h). destruct (Nat.eqb_spec h' h) as [->|N]; [rewrite IS; reflexivity|apply S1].
      * intros u h' c' T. rewrite HI, HE. cbn. destruct (TOPS _ _ T) as [[-> (fs & X)]|[N X]]; [discriminate|intros B; exact B| |].
        -- rewrite FE in X. discriminate.
        -- destruct (Nat.eqb_spec h h') as [->|]; [|eauto]. exfalso. apply (HOLD _ _ h' N X); cbn; rewrite Nat.eqb_refl; discriminate.
      * intros u h' T. rewrite HI, HE. cbn. destruct (TOPS _ _ T) as [[-> (fs & X)]|[N X]]; [discriminate|intros B; exact B| |].
        -- rewrite FE in X. injection X as -> _. rewrite Nat.eqb_refl. reflexivity.
        -- destruct (Nat.eqb_spec h h') as [->|]; [reflexivity|eauto].
      * intros h'. destruct (Nat.eq_dec h h') as [<-|N]; [|apply OTHER; exact N]. right. exists t. right. unfold top. rewrite S, FE.
        erewrite wake_nth_of by (eapply nth_upd_same; eauto). destruct (wakes e); cbn; eexists; reflexivity.
    + split.
      * intros h'. rewrite H, HI, LS. unfold put. destruct (Nat.eqb_spec h' (on f)) as [->|N]; [rewrite IS|]; apply S1.
      * intros u h' c' T. rewrite HI, LS. destruct (TOPS _ _ T) as [[-> (fs & X)]|[N X]]; [discriminate|intros B; exact B| |eauto].
        exfalso. apply (proj1 (NF h')). exists c'. rewrite X. left. reflexivity.
      * intros u h' T. rewrite HI, LS. destruct (TOPS _ _ T) as [[-> (fs & X)]|[N X]]; [discriminate|intros B; exact B| |eauto].
        exfalso. apply (proj2 (NF h')). rewrite X. left. reflexivity.
      * intros h'. destruct (Nat.eq_dec (on f) h') as [<-|N]; [|apply OTHER; exact N]. rewrite H, put_same, HI, LS.
        destruct CB as [(-> & NS & NU)|[(h & c & -> & ->)|(h & -> & ->)]].
        -- destruct (S4 (on f)) as [X|(u & X)]; [auto|]. destruct (Nat.eq_dec u t) as [->|N]; [|right; exists u; apply KEEP; auto].
           exfalso. destruct X as [[c X]|X]; pose proof (top_one _ _ _ _ X T0) as Y; symmetry in Y; [eapply NS|eapply NU]; exact Y.
        -- left. cbn. symmetry. eapply S2. exact T0.
        -- left. cbn. symmetry. eapply S3. exact T0.
  - split; rewrite ?H, ?HI; auto.
    + intros u h c' T. destruct (top_spur _ _ _ _ _ _ _ _ P S T) as [[-> X]|[_ X]]; eauto. discriminate.
    + intros u h T. destruct (top_spur _ _ _ _ _ _ _ _ P S T) as [[-> X]|[_ X]]; eauto. discriminate.
    + intros h. rewrite ?H, ?HI. destruct (S4 h) as [X|(u & X)]; [auto|]. right. exists u.
      assert (N : u <> t). { intros ->. assert (T0 : top s t (WBlocked h0 n0)) by (exists rest; exact P). destruct X as [[c' X]|X]; pose proof (top_one _ _ _ _ X T0); discriminate. }
      destruct X as [[c' X]|X]; [left; exists c'|right]; eapply top_upd_other; eauto.
Qed.

Lemma setting_init n : setting (einit n).
Proof.
  split; cbn; auto. intros t h c [r P]. cbn in P. apply nth_all in P. discriminate.
Qed.

(** ** Waiting threads *)
Definition wt (h : nat) (f : frame) : nat := match f with WBlocked h' _ | WNotified h' _ => one (h' =? h) | _ => 0 end.
Lemma blind_wt h : blind (wt h).
Proof. intros h' f. destruct f; cbn; try reflexivity. destruct (h0 =? h') eqn:E; reflexivity. Qed.

Definition unsetting (h : nat) (f : frame) : Prop := f = UAssign h \/ f = UNotify h \/ f = UCheck h.
Definition notifying (h : nat) (f : frame) : Prop := f = ENotify h \/ f = UAssign h \/ f = UNotify h.

Record waits (s : estate) : Prop := {
  w_n : forall h, waiting (hs s h) = total (wt h) s;
  w_u : forall t f h, top s t f -> (unsetting h f \/ f = UUnlockE h) -> is_set (hs s h) = false;
  w_b : forall u h n, top s u (WBlocked h n) -> condition (hs s h) n = true -> exists t f, top s t f /\ notifying h f;
  w_c : forall u h n, top s u (WBlocked h n) -> is_set (hs s h) = false -> exists t f, top s t f /\ unsetting h f
}.

Lemma fstep_waiting x t f e : fstep x t f = Some e -> wt (on f) f <= waiting x -> waiting (handler_now e) + wt (on f) f = waiting x + number_of (wt (on f)) (frames e).
Proof.
  intros F L. assert (one1 : forall h, one (h =? h) = 1) by (intros; rewrite Nat.eqb_refl; reflexivity).
  assert (N0 : forall g : frame -> nat, number_of g [] = 0) by reflexivity.
  assert (N1 : forall (g : frame -> nat) a, number_of g [a] = g a) by (intros; unfold number_of; cbn; lia).
  assert (N2 : forall (g : frame -> nat) a b, number_of g [a; b] = g a + g b) by (intros; unfold number_of; cbn; lia).
  crack F; cbn [handler_now frames quietly saying with_e with_i with_set with_callback with_count with_waiting waiting]; rewrite ?N0, ?N1, ?N2; cbn [wt] in *; rewrite ?one1 in *; lia.
Qed.

Lemma wt_other h f : on f <> h -> wt h f = 0.
Proof. destruct f; cbn; intros N; try reflexivity; destruct (Nat.eqb_spec h0 h); cbn; congruence. Qed.

Lemma fstep_block x t f e h n : fstep x t f = Some e -> In (WBlocked h n) (frames e) -> on f = h /\ condition (handler_now e) n = false.
Proof.
  intros F I. crack F; cbn in I; repeat (destruct I as [I|I]; [try discriminate I|]); try (exfalso; exact I); injection I as -> ->; auto.
Qed.
Lemma fstep_cond x t f e n : fstep x t f = Some e -> condition x n = false -> condition (handler_now e) n = true ->
  exists g, frames e = [g] /\ notifying (on f) g.
Proof.
  intros F A B. unfold notifying. crack F; unfold condition in *; cbn in *; try congruence; try (eexists; split; [reflexivity|]; auto; fail);
    exfalso; apply orb_false_iff in A; destruct A as [A1 A2]; apply orb_true_iff in B; (destruct B as [B|B]; [lia|cbn in *; congruence]).
Qed.
Lemma fstep_notify x t f e h : fstep x t f = Some e -> notifying h f -> wakes e = true \/ exists g, frames e = [g] /\ notifying h g.
Proof. intros F [->|[->| ->]]; cbn in F; injection F as <-; cbn; auto. right. eexists. split; [reflexivity|]. unfold notifying. auto. Qed.
Lemma fstep_unsetting x t f e h : fstep x t f = Some e -> unsetting h f -> waiting x <> 0 -> wakes e = true \/ exists g, frames e = [g] /\ unsetting h g.
Proof.
  intros F [->|[->| ->]] W; cbn in F; injection F as <-; cbn; auto.
  - right. eexists. split; [reflexivity|]. unfold unsetting. auto.
  - right. destruct (Nat.eqb_spec (waiting x) 0); [congruence|]. eexists. split; [reflexivity|]. unfold unsetting. auto.
Qed.
Lemma notifying_on h f : notifying h f -> on f = h.
Proof. intros [->|[->| ->]]; reflexivity. Qed.
Lemma unsetting_on h f : unsetting h f -> on f = h.
Proof. intros [->|[->| ->]]; reflexivity. Qed.
Lemma notifying_plain h f : notifying h f -> (forall h' n, f <> WBlocked h' n) /\ ~ base f.
Proof. intros [->|[->| ->]]; split; cbn; try discriminate; tauto. Qed.
Lemma unsetting_plain h f : unsetting h f -> (forall h' n, f <> WBlocked h' n) /\ ~ base f /\ he h f = 1.
Proof. intros [->|[->| ->]]; cbn; rewrite Nat.eqb_refl; repeat split; try discriminate; tauto. Qed.

Lemma own_top s t f rest e s' g : nth_error (stacks s) t = Some (f :: rest) -> stacks s' = wake_all (on f) (wakes e) (upd (stacks s) t (frames e ++ rest)) ->
  frames e = [g] -> (forall h n, g <> WBlocked h n) -> top s' t g.
Proof.
  intros P S FE N. unfold top. rewrite S. erewrite wake_nth_of by (eapply nth_upd_same; eauto). rewrite FE. destruct (wakes e); cbn; eauto.
  eexists. f_equal. f_equal. destruct g; cbn; auto. destruct (N h n eq_refl).
Qed.

Lemma total_waiting s h u f : nth_error (stacks s) u = Some f -> number_of (wt h) f <= total (wt h) s.
Proof. intros P. unfold total. apply (number_ge (number_of (wt h)) _ _ _ P). Qed.

Lemma waits_step s l s' : locks s -> shape s -> waits s -> estep s l = Some s' -> waits s'.
Proof.
  intros LK SH [W1 W2 W3 W4] E. destruct (estep_next _ _ _ E) as [t c fs s1 P MC H _ HI S|t f rest e s1 P F H _ HI S|t h0 n0 rest s1 P H _ HI S].
  - assert (NT : forall u f, top s u f -> ~ base f -> u <> t).
    { intros u f [r Q] B ->. rewrite P in Q. injection Q as ->. destruct f; try discriminate MC. destruct c0; [apply B; exact I|discriminate]. }
    assert (OLD : forall u f, top s1 u f -> (forall c, f <> enter c) -> top s u f).
    { intros u f T N. destruct (top_call _ _ _ _ _ _ _ P S T) as [[_ X]|[_ X]]; [destruct (N _ X)|exact X]. }
    split.
    + intros h. rewrite H. unfold total. rewrite S, (total_call _ _ _ _ _ P), W1. assert (wt h (enter c) = 0) as -> by (destruct c; reflexivity). lia.
    + intros u f h T [U|U]; rewrite H; apply (W2 u f h); auto; apply OLD; auto.
      * intros c'. destruct U as [->|[->| ->]]; destruct c'; discriminate.
      * subst f. intros c'. destruct c'; discriminate.
    + intros u h n T C. rewrite H in C. destruct (W3 u h n) as (v & g & V & G); auto; [apply OLD; [exact T|intros []; discriminate]|].
      exists v, g. split; [|exact G]. eapply top_upd_other; eauto. eapply NT; eauto. apply (notifying_plain _ _ G).
    + intros u h n T C. rewrite H in C. destruct (W4 u h n) as (v & g & V & G); auto; [apply OLD; [exact T|intros []; discriminate]|].
      exists v, g. split; [|exact G]. eapply top_upd_other; eauto. eapply NT; eauto. apply (unsetting_plain _ _ G).
  - assert (T0 : top s t f) by (exists rest; exact P).
    assert (KEEP : forall u g, u <> t -> top s u g -> (forall h n, g <> WBlocked h n) -> top s1 u g).
    { intros u g N X B. apply (top_others _ _ _ _ _ _ _ _ P S N) in X. rewrite wk_not_blocked in X by exact B. exact X. }
    assert (BLK : forall u h n, top s1 u (WBlocked h n) -> (u = t /\ on f = h /\ condition (hs s1 h) n = false) \/ (u <> t /\ top s u (WBlocked h n) /\ (on f = h -> wakes e = false))).
    { intros u h n T. destruct (top_run _ _ _ _ _ _ _ _ SH P F S T) as [[-> [[fs X]|[_ X]]]|[N (g0 & X & Y)]].
      - left. split; [reflexivity|]. destruct (fstep_block _ _ _ _ h n F) as [O C]; [rewrite X; left; reflexivity|]. split; [exact O|]. rewrite H, <- O, put_same. exact C.
      - destruct X.
      - right. split; [exact N|]. assert (Z : g0 = WBlocked h n) by (apply (wk_inv _ _ _ _ Y); discriminate). rewrite Z in X, Y. split; [exact X|].
        intros O. unfold wk in Y. destruct (wakes e); [|reflexivity]. cbn in Y. rewrite O, Nat.eqb_refl in Y. discriminate. }
    split.
    + intros h. rewrite H. pose proof (total_run _ _ _ _ _ _ _ (blind_wt h) P S) as TR. destruct (Nat.eq_dec h (on f)) as [->|N].
      * rewrite put_same. pose proof (fstep_waiting _ _ _ _ F) as FW. rewrite W1 in FW. pose proof (total_waiting _ (on f) _ _ P) as G. rewrite number_cons in G. lia.
      * rewrite put_other by exact N. rewrite W1. rewrite (wt_other h f) in TR by congruence. rewrite (frames_other h _ _ _ _ wt F) in TR; auto; [lia|apply wt_other].
    + intros u g h T U. assert (PL : (forall h' n, g <> WNotified h' n) /\ ~ base g /\ he h g <> 0).
      { destruct U as [[->|[->| ->]]| ->]; cbn; rewrite Nat.eqb_refl; repeat split; try discriminate; tauto. }
      destruct PL as (PL1 & PL2 & PL3).
      destruct (top_run _ _ _ _ _ _ _ _ SH P F S T) as [[-> [[fs X]|[_ X]]]|[N (g0 & X & Y)]]; [|destruct (PL2 X)|].
      * assert (OF : on f = h /\ (is_set (handler_now e) = false \/ (is_set (handler_now e) = is_set (hs s (on f)) /\ (unsetting h f \/ f = UUnlockE h)))).
        { clear - F X U. unfold unsetting in *. crack F; cbn in X; inversion X; subst; destruct U as [[U|[U|U]]|U]; inversion U; subst; cbn; auto 10. }
        destruct OF as [O OF]. rewrite H, <- O, put_same. destruct OF as [OF|[OF OU]]; [exact OF|]. rewrite OF, O. eapply W2; eauto.
      * pose proof (wk_inv _ _ _ _ Y PL1) as EQ. rewrite EQ in X. clear Y EQ. rewrite H. pose proof (W2 _ _ _ X U) as Z. destruct (Nat.eq_dec h (on f)) as [O|O]; [|rewrite put_other by exact O; exact Z].
        rewrite O, put_same. destruct (fstep_set _ _ _ _ F) as [(h' & c & -> & _)|[(h' & -> & _ & _ & IS & _)|(IS & _)]]; [|exact IS|rewrite IS, <- O; exact Z].
        exfalso. apply N. cbn in O. subst h'. eapply (alone_e s u t g (SSet h c) h); eauto. cbn. rewrite Nat.eqb_refl. discriminate.
    + intros u h n T C. destruct (BLK _ _ _ T) as [(_ & _ & X)|(N & X & NW)]; [congruence|].
      destruct (condition (hs s h) n) eqn:C0.
      * destruct (W3 _ _ _ X C0) as (v & g & V & G). destruct (Nat.eq_dec v t) as [->|NV].
        -- assert (g = f) as -> by (eapply top_one; eauto). pose proof (notifying_on _ _ G) as O. destruct (fstep_notify _ _ _ _ _ F G) as [WK|(g' & FE & G')]; [rewrite (NW O) in WK; discriminate|].
           exists t, g'. split; [|exact G']. eapply own_top; eauto. apply (notifying_plain _ _ G').
        -- exists v, g. split; [|exact G]. apply KEEP; auto. apply (notifying_plain _ _ G).
      * assert (O : h = on f) by (destruct (Nat.eq_dec h (on f)); auto; rewrite H, put_other in C by auto; congruence). subst h.
        rewrite H, put_same in C. destruct (fstep_cond _ _ _ _ _ F C0 C) as (g & FE & G). exists t, g. split; [|exact G]. eapply own_top; eauto. apply (notifying_plain _ _ G).
    + intros u h n T C. destruct (BLK _ _ _ T) as [(_ & _ & X)|(N & X & NW)]; [unfold condition in X; rewrite C in X; cbn in X; rewrite orb_true_r in X; discriminate|].
      assert (WN : waiting (hs s h) <> 0). { rewrite W1. destruct X as [r X]. pose proof (total_waiting _ h _ _ X) as Z. rewrite number_cons in Z. cbn in Z. rewrite Nat.eqb_refl in Z. cbn in Z. lia. }
      destruct (is_set (hs s h)) eqn:C0.
      * assert (O : h = on f) by (destruct (Nat.eq_dec h (on f)); auto; rewrite H, put_other in C by auto; congruence). rewrite H, O, put_same in C.
        destruct (fstep_set _ _ _ _ F) as [(h' & c & -> & _ & _ & IS & _)|[(h' & -> & FE & _)|(IS & _)]]; [congruence| |rewrite IS, <- O in C; congruence].
        cbn in O. subst h'. exists t, (UAssign h). split; [eapply own_top; eauto; discriminate|unfold unsetting; auto].
      * destruct (W4 _ _ _ X C0) as (v & g & V & G). destruct (Nat.eq_dec v t) as [->|NV].
        -- assert (g = f) as -> by (eapply top_one; eauto). pose proof (unsetting_on _ _ G) as O. rewrite <- O in WN. destruct (fstep_unsetting _ _ _ _ _ F G WN) as [WK|(g' & FE & G')]; [rewrite (NW O) in WK; discriminate|].
           exists t, g'. split; [|exact G']. eapply own_top; eauto. apply (unsetting_plain _ _ G').
        -- exists v, g. split; [|exact G]. apply KEEP; auto. apply (unsetting_plain _ _ G).
  - assert (T0 : top s t (WBlocked h0 n0)) by (exists rest; exact P). split.
    + intros h. rewrite H, W1. unfold total. rewrite S. pose proof (number_upd (number_of (wt h)) _ _ (WNotified h0 n0 :: rest) _ P) as Y. rewrite !number_cons in Y. cbn in Y. lia.
    + intros u f h T U. rewrite H. destruct (top_spur _ _ _ _ _ _ _ _ P S T) as [[-> X]|[_ X]]; [|eauto]. exfalso. destruct U as [[->|[->| ->]]| ->]; discriminate.
    + intros u h n T C. rewrite H in C. destruct (top_spur _ _ _ _ _ _ _ _ P S T) as [[-> X]|[N X]]; [discriminate|]. destruct (W3 _ _ _ X C) as (v & g & V & G). exists v, g. split; [|exact G].
      eapply top_upd_other; eauto. intros ->. pose proof (top_one _ _ _ _ V T0) as ->. destruct (proj1 (notifying_plain _ _ G) h0 n0). reflexivity.
    + intros u h n T C. rewrite H in C. destruct (top_spur _ _ _ _ _ _ _ _ P S T) as [[-> X]|[N X]]; [discriminate|]. destruct (W4 _ _ _ X C) as (v & g & V & G). exists v, g. split; [|exact G].
      eapply top_upd_other; eauto. intros ->. pose proof (top_one _ _ _ _ V T0) as ->. destruct (proj1 (unsetting_plain _ _ G) h0 n0). reflexivity.
Qed.

Lemma waits_init n : waits (einit n).
Proof.
  assert (X : forall t f, ~ top (einit n) t f) by (intros t f [r P]; cbn in P; apply nth_all in P; discriminate).
  split; intros; try (exfalso; eapply X; eauto; fail). unfold total. cbn. rewrite number_repeat; reflexivity.
Qed.

Record good (s : estate) : Prop := { g_l : locks s; g_s : shape s; g_t : setting s; g_w : waits s }.
Lemma good_reach allowed n s : ereachable allowed n s -> good s.
Proof.
  induction 1 as [|s l s' R [A B C D] X E]; split.
  - apply locks_init. - apply shape_init. - apply setting_init. - apply waits_init.
  - eapply locks_step; eauto. - eapply shape_step; eauto. - eapply setting_step; eauto. - eapply waits_step; eauto.
Qed.

(** ** What happened before each event *)
Lemma fstep_happens x t f e : fstep x t f = Some e -> happens e = [] \/ exists v, happens e = [v].
Proof. intros F. crack F; cbn; eauto. Qed.

Lemma moments (Q : event -> list event -> Prop) allowed n s :
  ereachable allowed n s -> (forall t c ev, Q (VCall t c) ev) ->
  (forall s t f rest e v, ereachable allowed n s -> nth_error (stacks s) t = Some (f :: rest) -> fstep (hs s (on f)) t f = Some e -> happens e = [v] -> Q v (history s)) ->
  forall v older, moment s v older -> Q v older.
Proof.
  intros R C F. induction R as [|s l s' R IH A E]; intros v older (newer & H).
  - destruct newer; discriminate.
  - destruct (estep_next _ _ _ E) as [t c fs s1 P MC _ _ HI S|t f rest e s1 P FS _ _ HI S|t h0 n0 rest s1 P _ _ HI S]; rewrite HI in H.
    + destruct newer as [|x newer]; injection H as <- H; [rewrite <- H; apply C|]. apply IH. exists newer. exact H.
    + destruct (fstep_happens _ _ _ _ FS) as [X|[w X]]; rewrite X in H; cbn in H.
      * apply IH. exists newer. exact H.
      * destruct newer as [|x newer]; injection H as <- H; [rewrite <- H; eauto|]. apply IH. exists newer. exact H.
    + apply IH. exists newer. exact H.
Qed.

Lemma callback_lemma allowed n s : ereachable allowed n s -> forall t h c older, moment s (VCallback t h c) older -> last_set h older = Some c.
Proof.
  intros R t h c older H.
  refine (moments (fun v ev => match v with VCallback _ h c => last_set h ev = Some c | _ => True end) _ _ _ R _ _ _ _ H); [auto|].
  clear. intros s t f rest e v R P F HV. destruct v; auto. destruct (good_reach _ _ _ R) as [LK SH [S1 S2 S3 S4] _].
  assert (X : f = ETest h /\ callback (hs s h) = Some c). { crack F; cbn in HV; try discriminate; injection HV as <- <- <-; auto. }
  destruct X as [-> X]. destruct (S4 h) as [Y|(u & Y)]; [congruence|]. exfalso. assert (T0 : top s t (ETest h)) by (exists rest; exact P).
  assert (one1 : one (h =? h) <> 0) by (rewrite Nat.eqb_refl; discriminate).
  destruct Y as [[c' Y]|Y].
  - assert (u = t) as -> by (eapply (alone_i s u t _ _ h); eauto; exact one1). pose proof (top_one _ _ _ _ T0 Y). discriminate.
  - assert (u = t) as -> by (eapply (alone_i s u t _ _ h); eauto; exact one1). pose proof (top_one _ _ _ _ T0 Y). discriminate.
Qed.

Lemma no_abort_lemma allowed n s : ereachable allowed n s -> forall t h, ~ In (VAbort t h) (history s).
Proof.
  intros R t h I. apply in_split in I. destruct I as (a & b & H). assert (MO : moment s (VAbort t h) b) by (exists a; exact H).
  refine (moments (fun v ev => match v with VAbort _ _ => False | _ => True end) _ _ _ R _ _ _ _ MO); [auto|].
  clear. intros s t f rest e v R P F HV. destruct v; auto. destruct (good_reach _ _ _ R) as [LK SH [S1 S2 S3 S4] _].
  assert (X : f = ETest h /\ callback (hs s h) = None /\ is_set (hs s h) = true). { crack F; cbn in HV; try discriminate; injection HV as <- <-; auto. }
  destruct X as (-> & X & Z). assert (T0 : top s t (ETest h)) by (exists rest; exact P).
  assert (one1 : one (h =? h) <> 0) by (rewrite Nat.eqb_refl; discriminate).
  destruct (S4 h) as [Y|(u & Y)]; [rewrite S1, <- Y, X in Z; discriminate|].
  destruct Y as [[c' Y]|Y].
  - assert (u = t) as -> by (eapply (alone_i s u t _ _ h); eauto; exact one1). pose proof (top_one _ _ _ _ T0 Y). discriminate.
  - assert (u = t) as -> by (eapply (alone_i s u t _ _ h); eauto; exact one1). pose proof (top_one _ _ _ _ T0 Y). discriminate.
Qed.

Lemma unset_done_lemma allowed n s : ereachable allowed n s -> forall t h older, moment s (VUnsetDone t h) older -> last_set h older = None.
Proof.
  intros R t h older H. refine (moments (fun v ev => match v with VUnsetDone _ h => last_set h ev = None | _ => True end) _ _ _ R _ _ _ _ H); [auto|].
  clear. intros s t f rest e v R P F HV. destruct v; auto. destruct (good_reach _ _ _ R) as [LK SH [S1 S2 S3 S4] [_ W2 _ _]].
  assert (X : f = UUnlockE h) by (crack F; cbn in HV; try discriminate; injection HV as <- <-; auto). subst f.
  assert (Z : is_set (hs s h) = false) by (eapply W2; [exists rest; exact P|auto]). rewrite S1 in Z. destruct (last_set h (history s)); [discriminate|reflexivity].
Qed.

(** set_callback leaves its callback set *)
Lemma set_top allowed n s : ereachable allowed n s -> forall t h c, top s t (SUnlockE h c) -> last_set h (history s) = Some c.
Proof.
  induction 1 as [|s l s' R IH A E]; intros u h c T.
  - destruct T as [r P]. cbn in P. apply nth_all in P. discriminate.
  - destruct (good_reach _ _ _ R) as [LK SH [S1 S2 S3 S4] _].
    destruct (estep_next _ _ _ E) as [t c0 fs s1 P MC H _ HI S|t f rest e s1 P F H _ HI S|t h0 n0 rest s1 P H _ HI S]; rewrite HI.
    + cbn. destruct (top_call _ _ _ _ _ _ _ P S T) as [[-> X]|[_ X]]; eauto. destruct c0; discriminate.
    + assert (T0 : top s t f) by (exists rest; exact P). destruct (top_run _ _ _ _ _ _ _ _ SH P F S T) as [[-> [[fs X]|[_ X]]]|[N (g0 & X & Y)]].
      * assert (f = SAssign h c /\ happens e = []) as [-> HE] by (crack F; cbn in X; try discriminate; injection X as <- <-; auto). rewrite HE. cbn. eauto.
      * destruct X.
      * assert (g0 = SUnlockE h c) as -> by (apply (wk_inv _ _ _ _ Y); discriminate). pose proof (IH _ _ _ X) as Z.
        assert (one1 : one (h =? h) <> 0) by (rewrite Nat.eqb_refl; discriminate).
        destruct (fstep_set _ _ _ _ F) as [(h' & c' & -> & _ & -> & _)|[(h' & -> & _ & -> & _)|(_ & LS & _)]]; [| |rewrite LS; exact Z]; cbn; (destruct (Nat.eqb_spec h' h) as [->|]; [|exact Z]);
          exfalso; apply N; eapply (alone_e s u t); eauto.
    + destruct (top_spur _ _ _ _ _ _ _ _ P S T) as [[-> X]|[_ X]]; [discriminate|eauto].
Qed.
Lemma set_done_lemma allowed n s : ereachable allowed n s -> forall t h c older, moment s (VSetDone t h c) older -> last_set h older = Some c.
Proof.
  intros R t h c older H. refine (moments (fun v ev => match v with VSetDone _ h c => last_set h ev = Some c | _ => True end) _ _ _ R _ _ _ _ H); [auto|].
  clear. intros s t f rest e v R P F HV. destruct v; auto.
  assert (X : f = SUnlockE h c) by (crack F; cbn in HV; try discriminate; injection HV as <- <- <-; auto). subst f. eapply set_top; eauto. exists rest. exact P.
Qed.

(** ** What wait_for_event returns *)
Definition seen (n : N) (x : handler) (h : nat) (ev mid before : list event) : Prop :=
  (n <= count x)%N \/ unset_during h mid before \/ (exists e, In e mid /\ (was_reset h e = true \/ decremented h e = true)) \/ (M <= nn (counted h) ev)%N.

Lemma since_less p h ev : (nn p (since_reset h ev) <= nn p ev)%N.
Proof. induction ev as [|e ev IH]; [reflexivity|]. cbn. destruct (was_reset h e); unfold nn in *; [cbn; lia|]. rewrite !number_events_cons. lia. Qed.

Lemma seen_step n x t f e h ev mid before : tallied x h ev -> fstep x t f = Some e -> on f = h -> seen n x h ev mid before -> seen n (handler_now e) h (happens e ++ ev) (happens e ++ mid) before.
Proof.
  intros TA F O [A|[(a & b & B & B')|[(v & V & V')|A]]].
  - destruct (fstep_count _ _ _ _ F) as [[C _]|[[H C]|[[H C]|[H _]]]].
    + left. rewrite C. exact A.
    + destruct (N.eq_dec (count x + 1) M) as [Q|Q].
      * right. right. right. rewrite H, O. cbn [app]. unfold nn. rewrite number_events_cons. cbn [counted]. rewrite Nat.eqb_refl. cbn [one].
        destruct (N.lt_ge_cases (nn (counted h) (since_reset h ev)) M) as [L|L].
        -- pose proof (t_exact _ _ _ TA L) as X. pose proof (since_less (counted h) h ev) as Y. unfold nn in *. lia.
        -- pose proof (since_less (counted h) h ev) as Y. unfold nn in *. lia.
      * left. rewrite C, N.mod_small; [lia|]. pose proof (t_low _ _ _ TA). lia.
    + right. right. left. exists (VReset t h). rewrite H, O. split; [left; reflexivity|]. left. cbn. apply Nat.eqb_refl.
    + right. right. left. exists (VDecrement t h). rewrite H, O. split; [left; reflexivity|]. right. cbn. apply Nat.eqb_refl.
  - right. left. exists (happens e ++ a), b. rewrite B, app_assoc. auto.
  - right. right. left. exists v. rewrite in_app_iff. auto.
  - right. right. right. unfold nn in *. rewrite number_events_app. lia.
Qed.
Lemma seen_more n x h ev mid before add : seen n x h ev mid before -> seen n x h (add ++ ev) (add ++ mid) before.
Proof.
  intros [A|[(a & b & B & B')|[(v & V & V')|A]]].
  - left. exact A.
  - right. left. exists (add ++ a), b. rewrite B, app_assoc. auto.
  - right. right. left. exists v. rewrite in_app_iff. auto.
  - right. right. right. unfold nn in *. rewrite number_events_app. lia.
Qed.

Definition waits_at (h : nat) (n : N) (f : frame) : Prop := f = WTest h n \/ f = WEnter h n \/ f = WBlocked h n \/ f = WNotified h n \/ f = WResult h n.

Lemma fstep_wait x t f e h n g fs : fstep x t f = Some e -> frames e = g :: fs -> waits_at h n g ->
  on f = h /\ happens e = [] /\ waits_at h n f /\ (g = WResult h n -> (n <= count (handler_now e))%N \/ is_set x = false).
Proof.
  intros F X W. unfold waits_at in *. crack F; cbn in X; inversion X; subst; destruct W as [W|[W|[W|[W|W]]]]; inversion W; subst; cbn; repeat split; auto 10; try discriminate;
    intros _; unfold condition in *; match goal with H : (_ || _)%bool = true |- _ => apply orb_true_iff in H; destruct H as [H|H]; [left; apply N.leb_le; exact H|right; apply negb_true_iff; exact H] end.
Qed.

Lemma wait_inv allowed m s : ereachable allowed m s -> forall t h n f, top s t f -> waits_at h n f ->
  exists mid before, last_call t (WaitForEvent h n) (history s) mid before /\ (f = WResult h n -> seen n (hs s h) h (history s) mid (VCall t (WaitForEvent h n) :: before)).
Proof.
  induction 1 as [|s l s' R IH A E]; intros u h n g T W.
  - destruct T as [r P]. cbn in P. apply nth_all in P. discriminate.
  - destruct (good_reach _ _ _ R) as [LK SH [S1 S2 S3 S4] _].
    destruct (estep_next _ _ _ E) as [t c0 fs s1 P MC H _ HI S|t f rest e s1 P F H _ HI S|t h0 n0 rest s1 P H _ HI S]; rewrite HI, H.
    + destruct (top_call _ _ _ _ _ _ _ P S T) as [[-> X]|[N X]].
      * exists [], (history s). subst g. destruct W as [W|[W|[W|[W|W]]]]; destruct c0; inversion W; subst. split; [split; [reflexivity|auto]|discriminate].
      * destruct (IH _ _ _ _ X W) as (mid & before & [C1 C2] & SE). exists (VCall t c0 :: mid), before. split; [split|].
        -- rewrite C1. reflexivity.
        -- intros c' [I|I]; [congruence|eapply C2; eauto].
        -- intros Y. apply (seen_more _ _ _ _ _ _ [VCall t c0]). auto.
    + assert (NC : forall u c', ~ In (VCall u c') (happens e)) by (intros v c' I; exact (happens_on _ _ _ _ F _ I)).
      assert (UP : forall mid before, last_call u (WaitForEvent h n) (history s) mid before -> last_call u (WaitForEvent h n) (happens e ++ history s) (happens e ++ mid) before).
      { intros mid before [C1 C2]. split; [rewrite C1, app_assoc; reflexivity|]. intros c' I. apply in_app_iff in I. destruct I as [I|I]; [eapply NC; eauto|eapply C2; eauto]. }
      destruct (top_run _ _ _ _ _ _ _ _ SH P F S T) as [[-> [[fs X]|[_ X]]]|[N (g0 & X & Y)]].
      * destruct (fstep_wait _ _ _ _ _ _ _ _ F X W) as (O & HE & WF & SE). destruct (IH t h n f) as (mid & before & LC & SO); [exists rest; exact P|exact WF|].
        exists (happens e ++ mid), before. split; [apply UP; exact LC|]. intros Q. specialize (SE Q). rewrite HE. cbn. subst h. rewrite put_same. destruct SE as [SE|SE]; [left; exact SE|].
        right. left. exists [], mid. split; [reflexivity|]. destruct LC as [LC _]. rewrite <- LC. rewrite S1 in SE. destruct (last_set (on f) (history s)); [discriminate|reflexivity].
      * destruct W as [->|[->|[->|[->| ->]]]]; destruct X.
      * assert (W0 : waits_at h n g0 /\ (g = WResult h n -> g0 = WResult h n)).
        { unfold wk in Y. destruct (wakes e); [|subst; auto]. destruct g0; cbn in Y; try (subst; auto; fail). destruct (Nat.eqb_spec h0 (on f)); subst; auto.
          destruct W as [W|[W|[W|[W|W]]]]; inversion W; subst. split; [unfold waits_at; auto|discriminate]. }
        destruct W0 as [W0 W1]. destruct (IH _ _ _ _ X W0) as (mid & before & LC & SO). exists (happens e ++ mid), before. split; [apply UP; exact LC|]. intros Q. specialize (SO (W1 Q)).
        unfold put. destruct (Nat.eqb_spec h (on f)) as [->|NO]; [|apply seen_more; exact SO]. eapply seen_step; eauto. eapply tallied_reach; eauto.
    + destruct (top_spur _ _ _ _ _ _ _ _ P S T) as [[-> X]|[N X]]; [|eauto]. subst g. destruct W as [W|[W|[W|[W|W]]]]; inversion W; subst.
      destruct (IH t h n (WBlocked h n)) as (mid & before & LC & SO); [exists rest; exact P|unfold waits_at; auto|]. exists mid, before. split; [exact LC|discriminate].
Qed.

(** the result says whether enough events are counted *)
Lemma wait_result_lemma allowed m s : ereachable allowed m s -> forall t h n b older, moment s (VWaited t h n b) older -> (nn (counted h) (since_reset h older) < M)%N ->
  b = N.leb (n + nn (decremented h) (since_reset h older)) (nn (counted h) (since_reset h older)).
Proof.
  intros R t h n b older H.
  refine (moments (fun v ev => match v with VWaited _ h n b => (nn (counted h) (since_reset h ev) < M)%N -> b = N.leb (n + nn (decremented h) (since_reset h ev)) (nn (counted h) (since_reset h ev)) | _ => True end) _ _ _ R _ _ _ _ H); [auto|].
  clear. intros s t f rest e v R P F HV. destruct v; auto. intros L. pose proof (tallied_reach _ _ _ R h) as TA. pose proof (t_exact _ _ _ TA L) as X.
  assert (Y : on f = h /\ b = N.leb n (count (hs s (on f)))) by (crack F; cbn in HV; try discriminate; injection HV as <- <- <- <-; auto). destruct Y as [Y ->]. rewrite Y. lia.
Qed.

Lemma wait_false_lemma allowed m s : ereachable allowed m s -> forall t h n older, moment s (VWaited t h n false) older ->
  exists mid before, last_call t (WaitForEvent h n) older mid before /\
    (unset_during h mid (VCall t (WaitForEvent h n) :: before) \/ (exists e, In e mid /\ (was_reset h e = true \/ decremented h e = true)) \/ (M <= nn (counted h) older)%N).
Proof.
  intros R t h n older H.
  refine (moments (fun v ev => match v with VWaited t h n false => exists mid before, last_call t (WaitForEvent h n) ev mid before /\
    (unset_during h mid (VCall t (WaitForEvent h n) :: before) \/ (exists e, In e mid /\ (was_reset h e = true \/ decremented h e = true)) \/ (M <= nn (counted h) ev)%N) | _ => True end) _ _ _ R _ _ _ _ H); [auto|].
  clear. intros s t f rest e v R P F HV. destruct v; auto. destruct b; auto.
  assert (Y : f = WResult h n /\ t0 = t /\ N.leb n (count (hs s h)) = false) by (crack F; cbn in HV; try discriminate; injection HV as <- <- <- X; auto). destruct Y as (-> & -> & Y).
  destruct (wait_inv _ _ _ R t h n (WResult h n)) as (mid & before & LC & SE); [exists rest; exact P|unfold waits_at; auto|]. exists mid, before. split; [exact LC|].
  destruct (SE eq_refl) as [Z|Z]; [|exact Z]. apply N.leb_gt in Y. lia.
Qed.

(** ** Unsetting *)
Lemma unset_top_lemma allowed n s : ereachable allowed n s -> forall t h rest, nth_error (stacks s) t = Some (UUnlockE h :: rest) ->
  is_set (hs s h) = false /\ forall u fs k, nth_error (stacks s) u = Some fs -> ~ In (WBlocked h k) fs.
Proof.
  intros R t h rest P. destruct (good_reach _ _ _ R) as [LK SH _ [_ W2 _ W4]]. assert (T0 : top s t (UUnlockE h)) by (exists rest; exact P).
  assert (Z : is_set (hs s h) = false) by (eapply W2; eauto). split; [exact Z|]. intros u fs k Q I.
  assert (T : top s u (WBlocked h k)). { destruct fs as [|g fs]; [destruct I|]. destruct I as [->|I]; [exists fs; exact Q|]. destruct (SH _ _ _ Q _ I). }
  destruct (W4 _ _ _ T Z) as (v & g & V & G). destruct (unsetting_plain _ _ G) as (_ & _ & HE).
  assert (v = t) as -> by (eapply (alone_e s v t g (UUnlockE h) h); eauto; [rewrite HE; discriminate|cbn; rewrite Nat.eqb_refl; discriminate]).
  pose proof (top_one _ _ _ _ V T0) as ->. destruct G as [G|[G|G]]; discriminate.
Qed.

Lemma wakeup_lemma allowed n s : ereachable allowed n s -> forall u h k rest, nth_error (stacks s) u = Some (WBlocked h k :: rest) ->
  (count (hs s h) < k)%N /\ is_set (hs s h) = true \/ (exists t f r s', nth_error (stacks s) t = Some (f :: r) /\ (f = ENotify h \/ f = UAssign h \/ f = UNotify h) /\ estep s (Run t) = Some s').
Proof.
  intros R u h k rest P. destruct (good_reach _ _ _ R) as [LK SH _ [_ _ W3 _]]. destruct (condition (hs s h) k) eqn:C.
  - right. destruct (W3 u h k) as (t & f & [r T] & G); [exists rest; exact P|exact C|]. exists t, f, r. cbn. rewrite T.
    destruct G as [->|[->| ->]]; cbn; eexists; (split; [reflexivity|]); split; auto; reflexivity.
  - left. unfold condition in C. apply orb_false_iff in C. destruct C as [C1 C2]. split; [lia|]. destruct (is_set (hs s h)); [reflexivity|discriminate].
Qed.

(** ** When callbacks call nothing *)
Definition quiet_ok (s : estate) : Prop :=
  (forall t f rest, nth_error (stacks s) t = Some (f :: rest) -> (event_frame f = false -> rest = []) /\ forall g, In g rest -> exists h h', g = EForward h h') /\
  (forall h t fs f, is_set (hs s h) = false -> nth_error (stacks s) t = Some fs -> In f fs -> in_callback h f = false).

Lemma wake_incb h0 b h f : in_callback h (wk h0 b f) = in_callback h f.
Proof. unfold wk. destruct b; [|reflexivity]. destruct f; cbn; try reflexivity. destruct (h1 =? h0); reflexivity. Qed.
Lemma wake_event h0 b f : event_frame (wk h0 b f) = event_frame f.
Proof. unfold wk. destruct b; [|reflexivity]. destruct f; cbn; try reflexivity. destruct (h =? h0); reflexivity. Qed.

Lemma fstep_event x t f e g : fstep x t f = Some e -> In g (frames e) -> event_frame g = event_frame f.
Proof. intros F I. crack F; cbn in I; repeat (destruct I as [<-|I]; [reflexivity|]); destruct I. Qed.
Lemma fstep_incb x t f e h g : fstep x t f = Some e -> In g (frames e) -> in_callback h g = true -> on f = h /\ (in_callback h f = true \/ is_set x = true).
Proof.
  intros F I. crack F; cbn in I; repeat (destruct I as [<-|I]; [cbn; try discriminate; intros C; apply Nat.eqb_eq in C as ->; rewrite ?Nat.eqb_refl; auto|]); try (exfalso; exact I).
Qed.

(** the stacks after a step *)
Lemma stack_run s t f rest e s' u fs : nth_error (stacks s) t = Some (f :: rest) -> stacks s' = wake_all (on f) (wakes e) (upd (stacks s) t (frames e ++ rest)) -> nth_error (stacks s') u = Some fs ->
  exists fs0, fs = map (wk (on f) (wakes e)) fs0 /\ ((u = t /\ fs0 = frames e ++ rest) \/ (u <> t /\ nth_error (stacks s) u = Some fs0)).
Proof.
  intros P S Q. rewrite S in Q. apply wake_nth in Q. destruct Q as (fs0 & Q & EQ). exists fs0. split.
  - rewrite EQ. unfold wk. destruct (wakes e); [reflexivity|]. symmetry. apply map_id.
  - apply nth_upd in Q. exact Q.
Qed.

Lemma in_hi s t fs f h : nth_error (stacks s) t = Some fs -> In f fs -> in_callback h f = true -> mine (hi h) (stacks s) t <> 0.
Proof.
  intros P I C. unfold mine. rewrite P. apply In_nth_error in I. destruct I as [i I]. pose proof (number_ge (hi h) _ _ _ I) as G. assert (X : hi h f = 1); [|lia].
  destruct f; cbn in *; try discriminate; rewrite C; reflexivity.
Qed.

Lemma quiet_step s l s' : good s -> quiet_ok s -> quiet s l -> estep s l = Some s' -> quiet_ok s'.
Proof.
  intros [LK SH ST WT] [Q1 Q2] A E. destruct (estep_next _ _ _ E) as [t c fs s1 P MC H _ HI S|t f rest e s1 P F H _ HI S|t h0 n0 rest s1 P H _ HI S].
  - cbn in A. rewrite P in A. injection A as ->. split.
    + intros u f r Q. rewrite S in Q. apply nth_upd in Q. destruct Q as [[-> Q]|[N Q]]; [|eauto]. injection Q as -> ->. split; [reflexivity|]. intros g [].
    + intros h u fs f IS Q I. rewrite H in IS. rewrite S in Q. apply nth_upd in Q. destruct Q as [[-> ->]|[N Q]]; [|eauto]. destruct I as [<-|[]]. destruct c; reflexivity.
  - destruct (Q1 _ _ _ P) as [QA QB]. split.
    + intros u g r Q. destruct (stack_run _ _ _ _ _ _ _ _ P S Q) as (fs0 & EQ & [[-> ->]|[N Q']]).
      * destruct (frames_shape _ _ _ _ F) as [FE|[[g0 FE]|(h & h' & Ef & FE)]]; rewrite FE in EQ; cbn in EQ.
        -- destruct rest as [|g1 r1]; [discriminate|]. cbn in EQ. injection EQ as -> ->. destruct (QB g1 (or_introl eq_refl)) as (h & h' & ->). rewrite wake_event. split; [discriminate|].
           intros g I. apply in_map_iff in I. destruct I as (g2 & <- & I). destruct (QB g2 (or_intror I)) as (h2 & h2' & ->). unfold wk. destruct (wakes e); cbn; eauto.
        -- injection EQ as -> ->. rewrite wake_event. split.
           ++ intros EV. rewrite (fstep_event _ _ _ _ g0 F) in EV by (rewrite FE; left; reflexivity). rewrite (QA EV). reflexivity.
           ++ intros g I. apply in_map_iff in I. destruct I as (g2 & <- & I). destruct (QB g2 I) as (h2 & h2' & ->). unfold wk. destruct (wakes e); cbn; eauto.
        -- injection EQ as -> ->. rewrite wake_event. split; [discriminate|]. intros g [<-|I]; [unfold wk; destruct (wakes e); cbn; eauto|].
           apply in_map_iff in I. destruct I as (g2 & <- & I). destruct (QB g2 I) as (h2 & h2' & ->). unfold wk. destruct (wakes e); cbn; eauto.
      * destruct fs0 as [|g1 r1]; [discriminate|]. injection EQ as -> ->. destruct (Q1 _ _ _ Q') as [QC QD]. rewrite wake_event. split.
        -- intros EV. rewrite (QC EV). reflexivity.
        -- intros g I. apply in_map_iff in I. destruct I as (g2 & <- & I). destruct (QD g2 I) as (h2 & h2' & ->). unfold wk. destruct (wakes e); cbn; eauto.
    + intros h u fs g IS Q I. destruct (in_callback h g) eqn:C; [|reflexivity]. exfalso.
      destruct (stack_run _ _ _ _ _ _ _ _ P S Q) as (fs0 & EQ & WH). rewrite EQ in I. apply in_map_iff in I. destruct I as (g0 & <- & I). rewrite wake_incb in C.
      assert (D : is_set (hs s h) = false \/ (is_set (hs s h) = true /\ f = UClear h /\ frames e = [UAssign h])).
      { destruct (is_set (hs s h)) eqn:IS0; [right|left; reflexivity]. assert (O : h = on f) by (destruct (Nat.eq_dec h (on f)); auto; rewrite H, put_other in IS by auto; congruence).
        rewrite H, O, put_same in IS. destruct (fstep_set _ _ _ _ F) as [(h' & c & _ & _ & _ & X & _)|[(h' & -> & FE & _)|(X & _)]]; [congruence| |rewrite X, <- O in IS; congruence].
        cbn in O. subst h'. auto. }
      destruct D as [D|(D & -> & FE)].
      * destruct WH as [[-> ->]|[N Q']]; [|rewrite (Q2 h _ _ _ D Q' I) in C; discriminate]. apply in_app_iff in I. destruct I as [I|I].
        -- destruct (fstep_incb _ _ _ _ _ _ F I C) as [O [X|X]]; [|rewrite O, D in X; discriminate]. rewrite (Q2 h _ _ f D P (or_introl eq_refl)) in X. discriminate.
        -- rewrite (Q2 h _ _ g0 D P (or_intror I)) in C. discriminate.
      * assert (T0 : top s t (UClear h)) by (exists rest; exact P). destruct WH as [[-> ->]|[N Q']].
        -- rewrite FE, (QA eq_refl) in I. destruct I as [<-|[]]. discriminate.
        -- apply N. apply (alone _ _ _ _ _ (l_i _ LK h)); [eapply in_hi; eauto|]. pose proof (top_hi _ _ _ h T0) as X. cbn in X. rewrite Nat.eqb_refl in X. cbn in X. lia.
  - split.
    + intros u f r Q. rewrite S in Q. apply nth_upd in Q. destruct Q as [[-> Q]|[N Q]]; [|eauto]. injection Q as -> ->. destruct (Q1 _ _ _ P) as [QA QB]. split; [intros _; apply QA; reflexivity|exact QB].
    + intros h u fs f IS Q I. rewrite H in IS. rewrite S in Q. apply nth_upd in Q. destruct Q as [[-> ->]|[N Q]]; [|eauto]. destruct I as [<-|I]; [reflexivity|]. apply (Q2 h t _ f IS P). right. exact I.
Qed.

Lemma quiet_reach n s : ereachable quiet n s -> quiet_ok s.
Proof.
  induction 1 as [|s l s' R IH A E].
  - split; [intros t f rest P|intros h t fs f _ P I]; cbn in P; apply nth_all in P; [discriminate|subst; destruct I].
  - eapply quiet_step; eauto. eapply good_reach; eauto.
Qed.

Lemma not_running_lemma n s : ereachable quiet n s -> forall t h rest, nth_error (stacks s) t = Some (UUnlockE h :: rest) ->
  forall u fs f, nth_error (stacks s) u = Some fs -> In f fs -> in_callback h f = false.
Proof.
  intros R t h rest P u fs f Q I. destruct (unset_top_lemma _ _ _ R _ _ _ P) as [Z _]. destruct (quiet_reach _ _ R) as [_ Q2]. eapply Q2; eauto.
Qed.

(** ** No deadlock when callbacks call nothing and handlers forward in one direction *)
Fixpoint chained (f : frame) (rest : list frame) : Prop :=
  match rest with
  | [] => True
  | g :: rest' => (exists h, g = EForward h (on f) /\ h < on f) /\ chained g rest'
  end.
Lemma chained_on f f' rest : on f = on f' -> chained f rest -> chained f' rest.
Proof. intros O. destruct rest as [|g r]; [trivial|]. cbn. rewrite O. trivial. Qed.

Definition upward (f : frame) : Prop :=
  match f with
  | SLockE h (Forward h') | SLockI h (Forward h') | SSet h (Forward h') | SAssign h (Forward h') | ECallback h (Forward h') => h < h'
  | _ => True
  end.
Definition acyclic_ok (s : estate) : Prop :=
  (forall t f rest, nth_error (stacks s) t = Some (f :: rest) -> chained f rest /\ upward f) /\
  (forall h h', callback (hs s h) = Some (Forward h') -> h < h').

Lemma wk_on h b f : on (wk h b f) = on f.
Proof. unfold wk. destruct b; [|reflexivity]. destruct f; cbn; try reflexivity. destruct (h0 =? h); reflexivity. Qed.
Lemma wk_upward h b f : upward f -> upward (wk h b f).
Proof. unfold wk. destruct b; [|trivial]. destruct f; cbn; auto. destruct (h0 =? h); trivial. Qed.
Lemma wk_chained h b f rest : chained f rest -> chained (wk h b f) (map (wk h b) rest).
Proof.
  revert f. induction rest as [|g r IH]; intros f; [trivial|]. cbn. intros [(k & -> & L) C]. split.
  - exists k. rewrite wk_on. split; [|exact L]. unfold wk. destruct b; reflexivity.
  - apply IH. exact C.
Qed.

Lemma fstep_up x t f e : fstep x t f = Some e -> upward f -> (forall h', callback x = Some (Forward h') -> on f < h') ->
  (forall g, In g (frames e) -> upward g) /\ (forall h', callback (handler_now e) = Some (Forward h') -> on f < h').
Proof.
  intros F U C. crack F; cbn in *; (split; [intros g I; repeat (destruct I as [<-|I]; [cbn; auto|]); try (exfalso; exact I)|]); auto; try discriminate.
  all: try (intros h' X; injection X as ->; exact U). all: cbn in *; auto.
  - destruct c; auto.
  - intros h' X. apply C. congruence.
  - intros h' X. apply C. congruence.
Qed.

Lemma acyclic_step s l s' : acyclic_ok s -> quiet_acyclic s l -> estep s l = Some s' -> acyclic_ok s'.
Proof.
  intros [C1 C2] [A B] E. destruct (estep_next _ _ _ E) as [t c fs s1 P MC H _ HI S|t f rest e s1 P F H _ HI S|t h0 n0 rest s1 P H _ HI S].
  - cbn in A. rewrite P in A. injection A as ->. split; [|intros h h'; rewrite H; apply C2].
    intros u f r Q. rewrite S in Q. apply nth_upd in Q. destruct Q as [[-> Q]|[N Q]]; [|eauto]. injection Q as -> ->. split; [exact I|]. destruct c; cbn; auto.
  - destruct (C1 _ _ _ P) as [CH UP]. destruct (fstep_up _ _ _ _ F UP (C2 (on f))) as [U1 U2]. split.
    + intros u g r Q. destruct (stack_run _ _ _ _ _ _ _ _ P S Q) as (fs0 & EQ & [[-> ->]|[N Q']]).
      * assert (K : match frames e ++ rest with [] => True | g0 :: r0 => chained g0 r0 /\ upward g0 end).
        { destruct (frames_shape _ _ _ _ F) as [FE|[[g0 FE]|(h & h' & Ef & FE)]]; rewrite FE; cbn.
          - destruct rest as [|g1 r1]; [trivial|]. cbn in CH. destruct CH as [(k & -> & L) CH]. split; [exact CH|exact I].
          - split; [|apply U1; rewrite FE; left; reflexivity]. eapply chained_on; [|exact CH].
            symmetry. destruct (frames_on _ _ _ _ F g0) as [X|X]; [rewrite FE; left; reflexivity|exact X|]. destruct X as (k & k' & Ef & _). subst f. injection F as <-. discriminate.
          - subst f. cbn in UP. split; [|exact I]. split; [exists h; auto|]. eapply chained_on; [|exact CH]. reflexivity. }
        destruct (frames e ++ rest) as [|g0 r0]; [discriminate|]. cbn in EQ. injection EQ as -> ->. destruct K as [K1 K2]. split; [apply wk_chained; exact K1|apply wk_upward; exact K2].
      * destruct fs0 as [|g1 r1]; [discriminate|]. injection EQ as -> ->. destruct (C1 _ _ _ Q') as [K1 K2]. split; [apply wk_chained; exact K1|apply wk_upward; exact K2].
    + intros h h'. rewrite H. destruct (Nat.eq_dec h (on f)) as [->|N]; [rewrite put_same; apply U2|rewrite put_other by exact N; apply C2].
  - split; [|intros h h'; rewrite H; apply C2]. intros u f r Q. rewrite S in Q. apply nth_upd in Q. destruct Q as [[-> Q]|[N Q]]; [|eauto]. injection Q as -> ->. destruct (C1 _ _ _ P) as [K1 K2].
    split; [|exact I]. eapply chained_on; [|exact K1]. reflexivity.
Qed.

Lemma allowed_weaker (A B : estate -> elabel -> Prop) n s : (forall x l, A x l -> B x l) -> ereachable A n s -> ereachable B n s.
Proof. intros W. induction 1; [constructor|econstructor; eauto]. Qed.

Lemma acyclic_reach n s : ereachable quiet_acyclic n s -> acyclic_ok s.
Proof.
  induction 1 as [|s l s' R IH A E]; [|eapply acyclic_step; eauto]. split; [intros t f rest P|intros h h' P]; cbn in P; [apply nth_all in P; discriminate|discriminate].
Qed.

Lemma chain_below f rest h : chained f rest -> number_of (hi h) rest <> 0 -> h < on f.
Proof.
  revert f. induction rest as [|g r IH]; intros f C H; [exfalso; apply H; reflexivity|]. rewrite number_cons in H. cbn [chained] in C. destruct C as [(k & -> & L) C]. cbn [hi] in H.
  destruct (Nat.eqb_spec k h) as [->|N]; [exact L|]. cbn in H. specialize (IH _ C H). cbn in IH. lia.
Qed.
Lemma chain_e f rest h : chained f rest -> number_of (he h) rest = 0.
Proof. revert f. induction rest as [|g r IH]; intros f C; [reflexivity|]. rewrite number_cons. cbn in C. destruct C as [(k & -> & L) C]. cbn [he]. apply (IH _ C). Qed.

Definition runs (s : estate) : Prop := exists u s', estep s (Run u) = Some s'.
Lemma runs_fstep s u f rest e : nth_error (stacks s) u = Some (f :: rest) -> fstep (hs s (on f)) u f = Some e -> runs s.
Proof. intros P F. exists u. cbn. rewrite P, F. eauto. Qed.

Lemma holder_i s u fs h : good s -> quiet_ok s -> acyclic_ok s -> nth_error (stacks s) u = Some fs -> number_of (hi h) fs <> 0 ->
  runs s \/ (exists h2 rest, h < h2 /\ fs = ELockI h2 :: rest).
Proof.
  intros G [Q1 _] [C1 _] P H. destruct fs as [|f rest]; [exfalso; apply H; reflexivity|]. destruct (Q1 _ _ _ P) as [QA QB]. destruct (C1 _ _ _ P) as [CH UP].
  rewrite number_cons in H. destruct (fstep (hs s (on f)) u f) as [e|] eqn:F; [left; eapply runs_fstep; eauto|]. right.
  destruct (Nat.eq_dec (hi h f) 0) as [Z|Z].
  - rewrite Z in H. cbn in H. assert (EV : event_frame f = true). { destruct (event_frame f); [reflexivity|]. rewrite (QA eq_refl) in H. exfalso. apply H. reflexivity. }
    pose proof (chain_below _ _ _ CH H) as L. destruct f as [| | | | | | | | | | | | | | | | | | | | |? |? |? [|]| | | |]; try discriminate; cbn in F; try discriminate.
    + exists h0, rest. cbn in L. auto.
    + destruct (is_set _); [destruct (callback _)|]; discriminate.
  - destruct f as [| | | | | | | | | | | | | | | | | | | | |? |? |? [|]| | | |]; cbn in Z; try (exfalso; apply Z; reflexivity); cbn in F; try discriminate. destruct (is_set _); [destruct (callback _)|]; discriminate.
Qed.

Definition wants_i (h : nat) (f : frame) : Prop := (exists c, f = SLockI h c) \/ f = ULockI h \/ f = ELockI h.
Lemma wants_i_run s t f rest h : nth_error (stacks s) t = Some (f :: rest) -> wants_i h f -> (exists m, rlock (imutex (hs s h)) t = Some m) -> runs s.
Proof. intros P W [m R]. destruct W as [[c ->]|[->| ->]]; eapply runs_fstep; try exact P; cbn; rewrite R; reflexivity. Qed.

Lemma want_i_lemma s B : good s -> quiet_ok s -> acyclic_ok s -> (forall t f rest, nth_error (stacks s) t = Some (f :: rest) -> on f <= B) ->
  forall k h t f rest, B - h <= k -> nth_error (stacks s) t = Some (f :: rest) -> wants_i h f -> runs s.
Proof.
  intros G Q C BD. induction k as [|k IH]; intros h t f rest LE P W.
  all: destruct (free_or_owner _ _ _ t (l_i _ (g_l _ G) h)) as [FR|(u & fs & N & PU & H)]; [eapply wants_i_run; eauto|].
  all: destruct (holder_i _ _ _ _ G Q C PU H) as [|(h2 & r2 & L & ->)]; [assumption|].
  all: pose proof (BD _ _ _ PU) as BU; cbn in BU.
  - lia.
  - apply (IH h2 u (ELockI h2) r2); [lia|exact PU|]. right. right. reflexivity.
Qed.

Lemma tops_bounded (l : list (list frame)) : exists B, forall t f rest, nth_error l t = Some (f :: rest) -> on f <= B.
Proof.
  induction l as [|fs l [B IH]]; [exists 0; intros [|t]; discriminate|]. exists (match fs with [] => B | f :: _ => Nat.max B (on f) end). intros [|t] f rest P.
  - injection P as ->. lia.
  - specialize (IH _ _ _ P). destruct fs; lia.
Qed.

Lemma progress_lemma n s : ereachable quiet_acyclic n s -> forall t f rest, nth_error (stacks s) t = Some (f :: rest) ->
  (exists h k, f = WBlocked h k /\ (count (hs s h) < k)%N /\ is_set (hs s h) = true) \/ (exists u s', estep s (Run u) = Some s').
Proof.
  intros R t f rest P. assert (G : good s) by (eapply good_reach; eauto). assert (C : acyclic_ok s) by (eapply acyclic_reach; eauto).
  assert (Q : quiet_ok s). { eapply quiet_reach. eapply allowed_weaker; [|exact R]. intros x l [A _]. exact A. }
  destruct (tops_bounded (stacks s)) as [B BD].
  assert (WI : forall h u g r, nth_error (stacks s) u = Some (g :: r) -> wants_i h g -> runs s) by (intros; eapply want_i_lemma; eauto).
  destruct (fstep (hs s (on f)) t f) as [e|] eqn:F; [right; eapply runs_fstep; eauto|].
  assert (WE : forall h, on f = h -> (exists c, f = SLockE h c) \/ f = ULockE h -> runs s).
  { intros h O D. destruct (free_or_owner _ _ _ t (l_e _ (g_l _ G) h)) as [[m FR]|(u & fs & N & PU & H)].
    - exfalso. destruct D as [[c ->]| ->]; cbn in F; rewrite FR in F; discriminate.
    - destruct fs as [|g r]; [exfalso; apply H; reflexivity|]. destruct C as [C1 _]. destruct (C1 _ _ _ PU) as [CH _]. rewrite number_cons, (chain_e _ _ _ CH) in H.
      destruct (fstep (hs s (on g)) u g) as [e|] eqn:F'; [eapply runs_fstep; eauto|].
      assert (X : wants_i (on g) g).
      { destruct g as [| | | | | | | | | | | | | | | | | | | | |? |? |? [|]| | | |]; cbn in H; try (exfalso; apply H; reflexivity); cbn in F'; try discriminate; unfold wants_i; cbn; eauto. }
      eapply WI; eauto. }
  destruct f as [h c|h c|h c|h c|h c|h|h|h|h|h|h|h|h|h k|h k|h k|h k|h k|h|h|h|h|h|h [c|h']|h h'|h|h|h]; cbn in F; try discriminate.
  - right. apply (WE h); eauto.
  - right. apply (WI h _ _ _ P). left. eauto.
  - right. apply (WE h); eauto.
  - right. apply (WI h _ _ _ P). right. left. reflexivity.
  - destruct (wakeup_lemma _ _ _ R _ _ _ _ P) as [[A B']|(u & g & r & s' & _ & _ & E)]; [left; eauto|right; eauto].
  - right. apply (WI h _ _ _ P). right. right. reflexivity.
  - destruct (is_set _); [destruct (callback _)|]; discriminate.
Qed.

(** ** A multiple handler *)
Definition okcb (parent : nat -> option nat) (h : nat) (c : cb) : Prop :=
  match parent h with
  | Some m => c = Forward m
  | None => forall h', c = Forward h' -> parent h' = None /\ ~ has_handlers parent h'
  end.
Definition okframe (parent : nat -> option nat) (f : frame) : Prop :=
  match f with
  | SLockE h c | SLockI h c | SSet h c | SAssign h c | ECallback h c => okcb parent h c
  | ULockE h | UTest h | ULockI h | UClear h | UAssign h | UNotify h | UCheck h | UUnlockE h => ~ has_handlers parent h
  | RStore h | DStore h => parent h = None /\ ~ has_handlers parent h
  | _ => True
  end.
Definition okevent (parent : nat -> option nat) (e : event) : Prop :=
  match e with
  | VCallback _ h c => okcb parent h c
  | VReset _ h | VDecrement _ h => parent h = None /\ ~ has_handlers parent h
  | _ => True
  end.
(** the handlers whose callback has to be set when an event of [h] is handled *)
Definition needs (parent : nat -> option nat) (h m : nat) : Prop := above parent h m \/ m = h /\ has_handlers parent h.
Definition forwarded (m : nat) (e : event) : bool := match e with VCallback _ _ (Forward m') => m' =? m | _ => false end.
Definition pending (m : nat) (f : frame) : nat := match f with ECallback _ (Forward m') | ELockI m' | ETest m' => one (m' =? m) | _ => 0 end.

Record multi_ok (parent : nat -> option nat) (s : estate) : Prop := {
  m_frames : forall t fs f, nth_error (stacks s) t = Some fs -> In f fs -> okframe parent f;
  m_cb : forall h c, callback (hs s h) = Some c -> okcb parent h c;
  m_events : forall e, In e (history s) -> okevent parent e;
  m_set : forall t fs f m, nth_error (stacks s) t = Some fs -> In f fs -> event_frame f = true -> needs parent (on f) m -> is_set (hs s m) = true;
  m_count : forall m, has_handlers parent m -> number (forwarded m) (history s) = number (called m) (history s) + total (pending m) s
}.

Lemma above_has parent h m : above parent h m -> has_handlers parent m.
Proof. intros [m0 P|m0 m1 _ P]; eexists; exact P. Qed.
Lemma above_first parent h m : parent h = Some m -> forall m', above parent m m' -> above parent h m'.
Proof. intros P m' A. induction A as [m0 Q|m0 m1 _ IH Q]; [apply above_next with m; [constructor; exact P|exact Q]|eapply above_next; eauto]. Qed.
Lemma wk_okframe parent h b f : okframe parent f -> okframe parent (wk h b f).
Proof. unfold wk. destruct b; [|trivial]. destruct f; cbn; auto. destruct (h0 =? h); trivial. Qed.
Lemma blind_pending m : blind (pending m).
Proof. intros h f. destruct f; cbn; try reflexivity. destruct (h0 =? h); reflexivity. Qed.

Lemma fstep_okframe parent x t f e : fstep x t f = Some e -> okframe parent f -> (forall c, callback x = Some c -> okcb parent (on f) c) ->
  (forall g, In g (frames e) -> okframe parent g) /\ (forall c, callback (handler_now e) = Some c -> okcb parent (on f) c) /\ (forall v, In v (happens e) -> okevent parent v).
Proof.
  intros F U C. crack F; cbn in *; (split; [|split]);
    try (let g := fresh in let I := fresh in intros g I; repeat (destruct I as [<-|I]; [cbn; auto|]); try (exfalso; exact I)); auto; try discriminate.
  all: try (match goal with H : Some _ = Some _ |- _ => injection H as <-; exact U end). all: match goal with H0 : _ = Some ?c |- okcb _ _ ?c => apply C; congruence end.
Qed.

Lemma fstep_needs parent x t f e g m : fstep x t f = Some e -> okframe parent f -> In g (frames e) -> event_frame g = true -> needs parent (on g) m ->
  event_frame f = true /\ needs parent (on f) m.
Proof.
  intros F U I B1 B2. rewrite (fstep_event _ _ _ _ _ F I) in B1. split; [exact B1|]. destruct (frames_on _ _ _ _ F _ I) as [<-|(h & h' & -> & ->)]; [exact B2|].
  cbn in *. unfold okcb in U. left. destruct (parent h) as [m1|] eqn:P.
  - injection U as ->. destruct B2 as [B2|[-> _]]; [eapply above_first; eauto|constructor; exact P].
  - destruct (U h' eq_refl) as [N1 N2]. destruct B2 as [B2|[_ B2]]; [|contradiction].
    exfalso. clear -B2 N1. induction B2; congruence.
Qed.

Lemma fstep_pending m x t f e : fstep x t f = Some e -> (event_frame f = true -> on f = m -> is_set x = true) ->
  (forall h, f = ETest h -> is_set x = true -> callback x <> None) ->
  number (forwarded m) (happens e) + pending m f = number (called m) (happens e) + number_of (pending m) (frames e).
Proof.
  intros F B NA. crack F; try reflexivity; try (unfold number, number_of; cbn; rewrite ?Nat.add_0_r; reflexivity).
  - unfold number, number_of. cbn. destruct (h =? m); (destruct c as [|h']; cbn; [reflexivity|]; destruct (h' =? m); reflexivity).
  - exfalso. apply (NA h); auto.
  - unfold number, number_of. cbn. destruct (Nat.eqb_spec h m) as [->|N]; [|reflexivity]. specialize (B eq_refl eq_refl). congruence.
Qed.

Lemma number_events_all p ev : (forall e, In e ev -> p e = false) -> number p ev = 0.
Proof. intros H. unfold number. induction ev as [|e ev IH]; [reflexivity|]. cbn. rewrite H by (left; reflexivity). apply IH. intros x I. apply H. right. exact I. Qed.

Lemma multi_step parent s l s' : good s -> multi_ok parent s -> registered parent s l -> estep s l = Some s' -> multi_ok parent s'.
Proof.
  intros G [M1 M2 M3 M4 M5] A E. destruct (estep_next _ _ _ E) as [t c fs s1 P MC H _ HI S|t f rest e s1 P F H _ HI S|t h0 n0 rest s1 P H _ HI S].
  - assert (OF : okframe parent (enter c)) by (destruct c; cbn in *; first [exact Logic.I|exact A|tauto]). split.
    + intros u fs0 f Q I. rewrite S in Q. apply nth_upd in Q. destruct Q as [[-> ->]|[N Q]]; [|eauto]. destruct I as [<-|I]; [exact OF|eauto].
    + rewrite H. exact M2.
    + rewrite HI. intros e [<-|I]; [exact Logic.I|auto].
    + intros u fs0 f m Q I B1 B2. rewrite H. rewrite S in Q. apply nth_upd in Q. destruct Q as [[-> ->]|[N Q]]; [|eauto]. destruct I as [<-|I]; [|eauto].
      destruct c; cbn in *; try discriminate. destruct A as [A1 A2]. destruct B2 as [B2|[_ B2]]; [apply A2; exact B2|contradiction].
    + intros m HM. rewrite HI, !number_events_cons. cbn [forwarded called one]. unfold total at 1. rewrite S, (total_call _ _ _ _ _ P). assert (X : pending m (enter c) = 0).
      { destruct c; cbn; try reflexivity. destruct (Nat.eqb_spec h m) as [->|]; [|reflexivity]. destruct A as [A _]. contradiction. }
      specialize (M5 m HM). unfold one. lia.
  - assert (OF : okframe parent f) by (eapply M1; [exact P|left; reflexivity]). destruct (fstep_okframe parent _ _ _ _ F OF (M2 (on f))) as (F1 & F2 & F3).
    assert (BS : forall m, has_handlers parent m -> event_frame f = true -> on f = m -> is_set (hs s (on f)) = true).
    { intros m HM B O. apply (M4 _ _ f (on f) P); [left; reflexivity|exact B|]. right. split; [reflexivity|]. rewrite O. exact HM. }
    assert (NA : forall h, f = ETest h -> is_set (hs s (on f)) = true -> callback (hs s (on f)) <> None).
    { intros h -> IS X. cbn in *. destruct (g_t _ G) as [S1 S2 S3 S4]. rewrite S1 in IS. assert (T0 : top s t (ETest h)) by (exists rest; exact P). destruct (S4 h) as [Y|(u & Y)]; [rewrite Y in X; rewrite X in IS; discriminate|].
      assert (one1 : one (h =? h) <> 0) by (rewrite Nat.eqb_refl; discriminate).
      destruct Y as [[c' Y]|Y]; (assert (u = t) as -> by (eapply (alone_i s u t _ _ h); eauto; first [exact (g_l _ G)|exact one1])); pose proof (top_one _ _ _ _ T0 Y); discriminate. }
    split.
    + intros u fs g Q I. destruct (stack_run _ _ _ _ _ _ _ _ P S Q) as (fs0 & EQ & WH). rewrite EQ in I. apply in_map_iff in I. destruct I as (g0 & <- & I). apply wk_okframe.
      destruct WH as [[-> ->]|[N Q']]; [|eauto]. apply in_app_iff in I. destruct I as [I|I]; [auto|]. eapply M1; [exact P|right; exact I].
    + intros h c. rewrite H. destruct (Nat.eq_dec h (on f)) as [->|N]; [rewrite put_same; apply F2|rewrite put_other by exact N; apply M2].
    + rewrite HI. intros v I. apply in_app_iff in I. destruct I; auto.
    + intros u fs g m Q I B1 B2. assert (HM : has_handlers parent m) by (destruct B2 as [B2|[-> B2]]; [eapply above_has; exact B2|exact B2]).
      assert (D : is_set (hs s m) = true -> is_set (hs s1 m) = true).
      { intros IS. rewrite H. destruct (Nat.eq_dec m (on f)) as [O|N]; [|rewrite put_other by exact N; exact IS]. rewrite O, put_same.
        destruct (fstep_set _ _ _ _ F) as [(h' & c & _ & _ & _ & X & _)|[(h' & -> & FE & _)|(X & _)]]; [exact X| |rewrite X, <- O; exact IS]. cbn in O. subst h'. cbn in OF. contradiction. }
      apply D. destruct (stack_run _ _ _ _ _ _ _ _ P S Q) as (fs0 & EQ & WH). rewrite EQ in I. apply in_map_iff in I. destruct I as (g0 & <- & I).
      rewrite wake_event in B1. rewrite wk_on in B2. destruct WH as [[-> ->]|[N Q']]; [|eapply M4; eauto]. apply in_app_iff in I. destruct I as [I|I]; [|eapply M4; [exact P|right; exact I|exact B1|exact B2]].
      destruct (fstep_needs _ _ _ _ _ _ _ F OF I B1 B2) as [C1 C2]. eapply M4; [exact P|left; reflexivity|exact C1|exact C2].
    + intros m HM. rewrite HI, !number_events_app. pose proof (fstep_pending m _ _ _ _ F (BS m HM) NA) as X. pose proof (total_run _ _ _ _ _ _ _ (blind_pending m) P S) as Y. specialize (M5 m HM). unfold total in *. lia.
  - split.
    + intros u fs0 f Q I. rewrite S in Q. apply nth_upd in Q. destruct Q as [[-> ->]|[N Q]]; [|eauto]. destruct I as [<-|I]; [exact Logic.I|]. eapply M1; [exact P|right; exact I].
    + rewrite H. exact M2.
    + rewrite HI. exact M3.
    + intros u fs0 f m Q I B1 B2. rewrite H. rewrite S in Q. apply nth_upd in Q. destruct Q as [[-> ->]|[N Q]]; [|eauto].
      destruct I as [<-|I]; [discriminate|]. eapply M4; [exact P|right; exact I|exact B1|exact B2].
    + intros m HM. rewrite HI, (M5 m HM). unfold total. rewrite S. pose proof (number_upd (number_of (pending m)) _ _ (WNotified h0 n0 :: rest) _ P) as Y. rewrite !number_cons in Y. cbn in Y. lia.
Qed.

Lemma multi_reach parent n s : ereachable (registered parent) n s -> multi_ok parent s.
Proof.
  induction 1 as [|s l s' R IH A E]; [|eapply multi_step; eauto; eapply good_reach; eauto]. split; cbn.
  - intros t fs f P I. apply nth_all in P. subst. destruct I.
  - discriminate.
  - intros e [].
  - intros t fs f m P I. apply nth_all in P. subst. destruct I.
  - intros m _. unfold total. cbn. rewrite number_repeat; reflexivity.
Qed.

Lemma total_zero g s : (forall t fs f, nth_error (stacks s) t = Some fs -> In f fs -> g f = 0) -> total g s = 0.
Proof.
  intros H. unfold total. apply number_zero. intros t fs P. apply number_zero. intros i f Q. eapply H; eauto. eapply nth_error_In; eauto.
Qed.

Lemma forwarded_sum parent m cs ev : has_handlers parent m -> NoDup cs -> (forall h, In h cs <-> parent h = Some m) -> (forall e, In e ev -> okevent parent e) -> nn (forwarded m) ev = fold_right (fun h k => (nn (called h) ev + k)%N) 0%N cs.
Proof.
  intros HM ND CS. induction ev as [|e ev IH]; intros OK.
  - clear CS ND. induction cs as [|h cs IH]; [reflexivity|]. cbn [fold_right]. rewrite <- IH. reflexivity.
  - assert (X : forall l, NoDup l -> fold_right (fun h k => (nn (called h) (e :: ev) + k)%N) 0%N l = (fold_right (fun h k => (nn (called h) ev + k)%N) 0%N l + (match e with VCallback _ h _ => if in_dec Nat.eq_dec h l then 1 else 0 | _ => 0 end))%N).
    { induction l as [|h l IHl]; intros ND'; [destruct e; reflexivity|]. inversion ND' as [|? ? N1 N2]; subst. cbn [fold_right]. rewrite IHl by exact N2. unfold nn. rewrite number_events_cons.
      destruct e; cbn [called one]; try lia. destruct (Nat.eqb_spec h0 h) as [->|N].
      - destruct (in_dec Nat.eq_dec h (h :: l)) as [_|K]; [|exfalso; apply K; left; reflexivity]. destruct (in_dec Nat.eq_dec h l) as [K|_]; [contradiction|]. cbn [one]. lia.
      - destruct (in_dec Nat.eq_dec h0 (h :: l)) as [[K|K]|K]; destruct (in_dec Nat.eq_dec h0 l) as [K'|K']; cbn [one]; try lia; try congruence; try contradiction. exfalso. apply K. right. exact K'. }
    rewrite X by exact ND. rewrite <- IH by (intros v I; apply OK; right; exact I). unfold nn. rewrite number_events_cons.
    specialize (OK e (or_introl eq_refl)). destruct e; cbn [forwarded one okevent] in *; try lia. unfold okcb in OK. destruct (in_dec Nat.eq_dec h cs) as [K|K].
    + apply CS in K. rewrite K in OK. rewrite OK, Nat.eqb_refl. cbn [one]. lia.
    + destruct c as [|m']; [cbn [one]; lia|]. destruct (Nat.eqb_spec m' m) as [->|]; [|cbn [one]; lia]. exfalso. destruct (parent h) as [m1|] eqn:P.
      * injection OK as ->. apply K, CS. exact P.
      * destruct (OK m eq_refl) as [_ N]. exact (N HM).
Qed.

Lemma since_none h ev : (forall e, In e ev -> was_reset h e = false) -> since_reset h ev = ev.
Proof. induction ev as [|e ev IH]; intros H; [reflexivity|]. cbn. rewrite H by (left; reflexivity). rewrite IH; [reflexivity|]. intros x I. apply H. right. exact I. Qed.

Lemma sum_lemma parent m cs n s : has_handlers parent m -> NoDup cs -> (forall h, In h cs <-> parent h = Some m) ->
  ereachable (registered parent) n s -> settled s -> (count (hs s m) = sum_counts s cs mod M)%N.
Proof.
  intros HM ND CS R ST. destruct (multi_reach _ _ _ R) as [M1 M2 M3 M4 M5]. specialize (M5 m HM).
  assert (C : forall h, h = m \/ In h cs -> (count (hs s h) = nn (called h) (history s) mod M)%N).
  { intros h IN. assert (NO : parent h = None /\ ~ has_handlers parent h -> False). { intros [N1 N2]. destruct IN as [->|IN]; [auto|]. apply CS in IN. congruence. }
    destruct (tallied_reach _ _ _ R h) as [L MD _]. rewrite since_none in MD.
    - unfold nn in MD. rewrite (number_events_all (decremented h)) in MD.
      + cbn [N.of_nat] in MD. rewrite N.add_0_r, N.mod_small in MD by exact L. rewrite MD. pose proof (called_lemma _ _ _ R h) as K.
        assert (Z : in_progress s h = 0). { apply total_zero. intros t fs f P I. specialize (ST _ _ _ P I). destruct f; cbn in *; congruence. }
        rewrite Z, Nat.add_0_r in K. unfold nn. rewrite K. reflexivity.
      + intros e I. specialize (M3 _ I). destruct e; cbn in *; try reflexivity. destruct (Nat.eqb_spec h0 h) as [->|]; [|reflexivity]. exfalso. auto.
    - intros e I. specialize (M3 _ I). destruct e; cbn in *; try reflexivity. destruct (Nat.eqb_spec h0 h) as [->|]; [|reflexivity]. exfalso. auto. }
  rewrite (C m) by (left; reflexivity). assert (Z : total (pending m) s = 0). { apply total_zero. intros t fs f P I. specialize (ST _ _ _ P I). destruct f; cbn in *; congruence. }
  rewrite Z, Nat.add_0_r in M5. unfold nn at 1. rewrite <- M5. fold (nn (forwarded m) (history s)). rewrite (forwarded_sum parent m cs) by assumption.
  assert (C' : forall l, (forall h, In h l -> In h cs) -> (fold_right (fun h k => nn (called h) (history s) + k) 0 l mod M = sum_counts s l mod M)%N).
  { induction l as [|h l IH]; intros IN; [reflexivity|]. unfold sum_counts. cbn [fold_right]. fold (sum_counts s l). rewrite N.add_mod by discriminate. rewrite IH by (intros; apply IN; right; assumption).
    rewrite (C h) by (right; apply IN; left; reflexivity). rewrite N.add_mod_idemp_r by discriminate. reflexivity. }
  apply C'. auto.
Qed.

(** ** Callbacks that are assigned while they run *)
Lemma clobbered_lemma n s : ereachable quiet n s -> clobbered s = false.
Proof.
  induction 1 as [|s l s' R IH A E]; [reflexivity|]. destruct (estep_next _ _ _ E) as [t c fs s1 P MC H CL HI S|t f rest e s1 P F H CL HI S|t h0 n0 rest s1 P H CL HI S]; rewrite CL, IH; try reflexivity.
  destruct (assigns e) eqn:AS; [|reflexivity]. destruct (quiet_reach _ _ R) as [Q1 _]. destruct (Q1 _ _ _ P) as [QA _]. rewrite QA; [reflexivity|]. crack F; cbn in AS; try discriminate; reflexivity.
Qed.

(** ** Schedules *)
Fixpoint csteps (check : estate -> elabel -> bool) (s : estate) (ls : list elabel) : option estate :=
  match ls with
  | [] => Some s
  | l :: ls' => if check s l then match estep s l with Some s' => csteps check s' ls' | None => None end else None
  end.
Lemma csteps_reach (check : estate -> elabel -> bool) (allowed : estate -> elabel -> Prop) n ls : (forall s l, check s l = true -> allowed s l) -> forall s s', ereachable allowed n s -> csteps check s ls = Some s' -> ereachable allowed n s'.
Proof.
  intros W. induction ls as [|l ls IH]; intros s s' R H; cbn in H; [injection H as <-; exact R|]. destruct (check s l) eqn:C; [|discriminate].
  destruct (estep s l) as [s1|] eqn:E; [|discriminate]. apply (IH s1); [|exact H]. econstructor; eauto.
Qed.
Definition any_check (s : estate) (l : elabel) : bool := true.
Definition quiet_check (s : estate) (l : elabel) : bool := match l with Call t _ => match nth_error (stacks s) t with Some [] => true | _ => false end | _ => true end.
Definition acyclic_check (s : estate) (l : elabel) : bool := quiet_check s l && match l with Call _ (SetCallback h (Forward h')) => h <? h' | _ => true end.
Lemma any_sound s l : any_check s l = true -> anything s l.
Proof. intros _. exact I. Qed.
Lemma quiet_sound s l : quiet_check s l = true -> quiet s l.
Proof. destruct l as [t c| |]; cbn; auto. destruct (nth_error (stacks s) t) as [[|]|]; try discriminate. reflexivity. Qed.
Lemma acyclic_sound s l : acyclic_check s l = true -> quiet_acyclic s l.
Proof.
  unfold acyclic_check. intros H. apply andb_true_iff in H. destruct H as [A B]. split; [apply quiet_sound; exact A|]. destruct l as [t [h [|h']| | | | | |]| |]; auto. apply Nat.ltb_lt. exact B.
Qed.
(** for the sums: [parents] lists the registered handlers with their parent *)
Definition parent_of (parents : list (nat * nat)) (h : nat) : option nat := match find (fun p => fst p =? h) parents with Some p => Some (snd p) | None => None end.
Definition is_parent (parents : list (nat * nat)) (m : nat) : bool := existsb (fun p => snd p =? m) parents.
Definition multi_check (parents : list (nat * nat)) (s : estate) (l : elabel) : bool :=
  match l with
  | Call _ (SetCallback h c) =>
      match parent_of parents h, c with
      | Some m, Forward m' => m' =? m
      | None, User _ => true
      | _, _ => false
      end
  | Call _ (UnsetCallback h) => negb (is_parent parents h)
  | Call _ (ResetEventCount h) | Call _ (DecrementEventCount h) => false
  | Call _ (Occur h) => negb (is_parent parents h) && forallb (fun p => is_set (hs s (snd p))) parents
  | _ => true
  end.
Lemma parent_in parents h m : parent_of parents h = Some m -> In (h, m) parents.
Proof.
  unfold parent_of. destruct (find _ parents) as [[h0 m0]|] eqn:F; [|discriminate]. intros E. injection E as <-. apply find_some in F. destruct F as [I E]. apply Nat.eqb_eq in E. cbn in E. subst. exact I.
Qed.
Lemma not_parent parents m : negb (is_parent parents m) = true -> ~ has_handlers (parent_of parents) m.
Proof.
  intros N [h P]. apply parent_in in P. unfold is_parent in N. apply negb_true_iff in N. assert (X : existsb (fun p : nat * nat => snd p =? m) parents = true) by (apply existsb_exists; exists (h, m); split; [exact P|apply Nat.eqb_refl]). congruence.
Qed.
Lemma multi_sound parents s l : multi_check parents s l = true -> registered (parent_of parents) s l.
Proof.
  destruct l as [t [h c|h|h k|h|h|h|h]| |]; cbn; intros H; auto; try discriminate.
  - destruct (parent_of parents h) as [m|]; destruct c as [k|m']; try discriminate. apply Nat.eqb_eq in H. subst. reflexivity.
  - apply not_parent. exact H.
  - apply andb_true_iff in H. destruct H as [H1 H2]. split; [apply not_parent; exact H1|]. intros m A. rewrite forallb_forall in H2.
    assert (X : exists h', In (h', m) parents) by (destruct A as [m0 P|m0 m1 _ P]; eexists; apply parent_in; exact P). destruct X as [h' X]. apply (H2 _ X).
Qed.

Definition go (t n : nat) : list elabel := repeat (Run t) n.

(** *** reset_event_count while a callback is running *)
Definition reset_sched : list elabel := Call 0 (SetCallback 0 (User 0)) :: go 0 5 ++ Call 0 (Occur 0) :: go 0 2 ++ Call 1 (ResetEventCount 0) :: Run 1 :: go 0 4.
Lemma reset_refute : exists s, ereachable quiet_acyclic 2 s /\ stacks s = [[]; []] /\ count (hs s 0) = 1%N /\ nn (called 0) (since_reset 0 (history s)) = 0%N.
Proof.
  destruct (csteps acyclic_check (einit 2) reset_sched) as [s|] eqn:E; [|vm_compute in E; discriminate]. exists s. split; [eapply csteps_reach; [apply acyclic_sound|constructor|exact E]|].
  vm_compute in E. injection E as <-. repeat split; vm_compute; reflexivity.
Qed.

(** *** 2^32 events *)
Definition idle1 (c : N) : handler := {| emutex := None; imutex := None; is_set := true; callback := Some (User 0); count := c; waiting := 0 |}.
Lemma many_lemma k : exists s, ereachable quiet_acyclic 1 s /\ stacks s = [[]] /\ hs s 0 = idle1 (N.of_nat k mod M) /\ number (called 0) (history s) = k /\
  since_reset 0 (history s) = history s /\ number (decremented 0) (history s) = 0.
Proof.
  induction k as [|k (s & R & S & H & K & B & D)].
  - destruct (csteps acyclic_check (einit 1) (Call 0 (SetCallback 0 (User 0)) :: go 0 5)) as [s|] eqn:E; [|vm_compute in E; discriminate]. exists s.
    split; [eapply csteps_reach; [apply acyclic_sound|constructor|exact E]|]. vm_compute in E. injection E as <-. repeat split; vm_compute; reflexivity.
  - destruct s as [hsx stx cl ev]. cbn in S, H, K, B, D. subst stx.
    destruct (csteps acyclic_check {| hs := hsx; stacks := [[]]; clobbered := cl; history := ev |} (Call 0 (Occur 0) :: go 0 6)) as [s'|] eqn:E.
    + exists s'. split; [eapply csteps_reach; [apply acyclic_sound|exact R|exact E]|].
      cbn [csteps acyclic_check quiet_check nth_error stacks andb estep may_call enter upd go repeat app hs on fstep] in E.
      rewrite H in E. cbn [idle1 rlock imutex with_i quietly frames handler_now wakes wake_all happens assigns] in E.
      repeat (cbn [csteps acyclic_check quiet_check nth_error stacks andb estep may_call enter upd go repeat app hs on fstep put idle1 rlock runlock imutex is_set callback count with_i with_count quietly saying frames handler_now wakes wake_all happens assigns Nat.eqb emutex waiting existsb history List.map wake] in E).
      injection E as <-. cbn [hs stacks history put Nat.eqb number filter called since_reset was_reset decremented].
      split; [reflexivity|]. split.
      * replace (N.of_nat (S k) mod M)%N with ((N.of_nat k mod M + 1) mod 4294967296)%N; [reflexivity|]. rewrite Nat2N.inj_succ, <- N.add_1_r. apply N.add_mod_idemp_l. discriminate.
      * unfold number in *. cbn. rewrite B. repeat split; auto. rewrite Nat.eqb_refl. cbn. f_equal. exact K.
    + exfalso. cbn [csteps acyclic_check quiet_check nth_error stacks andb estep may_call enter upd go repeat app hs on fstep] in E. rewrite H in E. cbn in E. discriminate.
Qed.
Lemma wrap_refute : exists s, ereachable quiet_acyclic 1 s /\ stacks s = [[]] /\ count (hs s 0) = 0%N /\ since_reset 0 (history s) = history s /\
  number (decremented 0) (history s) = 0 /\ nn (called 0) (history s) = M.
Proof.
  destruct (many_lemma (N.to_nat M)) as (s & R & S & H & K & B & D). exists s. split; [exact R|]. split; [exact S|]. split.
  - rewrite H. unfold idle1, count. rewrite N2Nat.id. reflexivity.
  - split; [exact B|]. split; [exact D|]. unfold nn. rewrite K. apply N2Nat.id.
Qed.

(** *** unset_callback from within the callback *)
Definition nested_sched : list elabel := Call 0 (SetCallback 0 (User 0)) :: go 0 5 ++ Call 0 (Occur 0) :: go 0 2 ++ Call 0 (UnsetCallback 0) :: go 0 8 ++ Call 1 (UnsetCallback 0) :: go 1 3.
Lemma nested_refute : exists s older, ereachable anything 2 s /\ history s = VUnsetDone 1 0 :: older /\ nth_error (stacks s) 0 = Some [ECallback 0 (User 0)] /\ clobbered s = true.
Proof.
  destruct (csteps any_check (einit 2) nested_sched) as [s|] eqn:E; [|vm_compute in E; discriminate].
  assert (R : ereachable anything 2 s) by (eapply csteps_reach; [apply any_sound|constructor|exact E]). vm_compute in E. injection E as <-.
  eexists. eexists. split; [exact R|]. split; [reflexivity|]. split; reflexivity.
Qed.

Definition deadlock_sched : list elabel := Call 0 (SetCallback 0 (User 0)) :: go 0 5 ++ Call 0 (Occur 0) :: go 0 2 ++ Call 1 (UnsetCallback 0) :: go 1 2 ++ [Call 0 (UnsetCallback 0)].
Lemma deadlock_refute : exists s, ereachable anything 2 s /\ stacks s = [[ULockE 0; ECallback 0 (User 0)]; [ULockI 0]] /\ forall l, estep s l = None.
Proof.
  destruct (csteps any_check (einit 2) deadlock_sched) as [s|] eqn:E; [|vm_compute in E; discriminate].
  exists s. split; [eapply csteps_reach; [apply any_sound|constructor|exact E]|]. vm_compute in E. injection E as <-. split; [reflexivity|].
  intros [[|[|[|t]]] c|[|[|[|t]]]|[|[|[|t]]]]; reflexivity.
Qed.

(** *** two handlers that forward to each other *)
Definition cycle_sched : list elabel := Call 0 (SetCallback 0 (Forward 1)) :: go 0 5 ++ Call 0 (SetCallback 1 (Forward 0)) :: go 0 5 ++ Call 0 (Occur 0) :: go 0 2 ++ Call 1 (Occur 1) :: go 1 2 ++ [Run 0; Run 1].
Lemma cycle_refute : exists s, ereachable quiet 2 s /\ stacks s = [[ELockI 1; EForward 0 1]; [ELockI 0; EForward 1 0]] /\ forall l, estep s l = None.
Proof.
  destruct (csteps quiet_check (einit 2) cycle_sched) as [s|] eqn:E; [|vm_compute in E; discriminate].
  exists s. split; [eapply csteps_reach; [apply quiet_sound|constructor|exact E]|]. vm_compute in E. injection E as <-. split; [reflexivity|].
  intros [[|[|[|t]]] c|[|[|[|t]]]|[|[|[|t]]]]; reflexivity.
Qed.

(** *** reset_event_count between the wake-up and the answer *)
Definition lost_sched : list elabel := Call 0 (SetCallback 0 (User 0)) :: go 0 5 ++ Call 0 (Occur 0) :: go 0 6 ++ Call 1 (WaitForEvent 0 1) :: go 1 2 ++ Call 0 (ResetEventCount 0) :: Run 0 :: [Run 1].
Lemma lost_refute : exists s older mid before, ereachable quiet_acyclic 2 s /\ moment s (VWaited 1 0 1 false) older /\ last_call 1 (WaitForEvent 0 1) older mid before /\
  ~ unset_during 0 mid (VCall 1 (WaitForEvent 0 1) :: before) /\ nn (counted 0) older = 1%N.
Proof.
  destruct (csteps acyclic_check (einit 2) lost_sched) as [s|] eqn:E; [|vm_compute in E; discriminate].
  assert (R : ereachable quiet_acyclic 2 s) by (eapply csteps_reach; [apply acyclic_sound|constructor|exact E]). vm_compute in E. injection E as <-.
  eexists. eexists. exists [VReset 0 0; VCall 0 (ResetEventCount 0)]. eexists. split; [exact R|]. split; [exists []; cbn; reflexivity|]. split; [split; [reflexivity|]|].
  - intros c' [X|[X|[]]]; discriminate.
  - split; [|vm_compute; reflexivity]. intros (a & b & H & L). destruct a as [|? [|? [|? a]]]; cbn in H; inversion H; subst; cbn in L; discriminate.
Qed.

(** ** Corollaries *)
Lemma last_set_app h c mid ev : last_set h (mid ++ ev) = Some c -> last_set h ev = None -> exists t, In (VSet t h c) mid.
Proof.
  intros A B. induction mid as [|e mid IH]; cbn in A; [congruence|].
  assert (X : last_set h (mid ++ ev) = Some c -> exists t, In (VSet t h c) (e :: mid)) by (intros Y; destruct (IH Y) as [t I]; exists t; right; exact I).
  destruct e; auto.
  - destruct (Nat.eqb_spec h0 h) as [->|]; [|auto]. injection A as ->. eexists. left. reflexivity.
  - destruct (h0 =? h); [discriminate|auto].
Qed.
Lemma no_callback_lemma allowed n s : ereachable allowed n s -> forall t u h c mid older, moment s (VCallback t h c) (mid ++ VUnsetDone u h :: older) -> exists v, In (VSet v h c) mid.
Proof.
  intros R t u h c mid older (newer & H). pose proof (callback_lemma _ _ _ R t h c (mid ++ VUnsetDone u h :: older)) as C.
  apply last_set_app with (ev := VUnsetDone u h :: older); [apply C; exists newer; exact H|]. cbn. apply (unset_done_lemma _ _ _ R u). exists (newer ++ VCallback t h c :: mid). rewrite H, <- app_assoc. reflexivity.
Qed.

Lemma quiescent_lemma allowed n s : ereachable allowed n s -> forall h, in_progress s h = 0 -> number (was_reset h) (history s) = 0 -> (nn (called h) (history s) < M)%N ->
  (count (hs s h) + nn (decremented h) (history s) = nn (called h) (history s))%N.
Proof.
  intros R h P NR L. pose proof (called_lemma _ _ _ R h) as C. rewrite P, Nat.add_0_r in C. pose proof (t_exact _ _ _ (tallied_reach _ _ _ R h)) as X.
  rewrite since_none in X.
  - unfold nn in *. rewrite C in *. apply X. exact L.
  - intros e I. destruct (was_reset h e) eqn:W; [|reflexivity]. exfalso. unfold number in NR. assert (Y : In e (filter (was_reset h) (history s))) by (apply filter_In; auto).
    destruct (filter (was_reset h) (history s)); [destruct Y|discriminate].
Qed.
