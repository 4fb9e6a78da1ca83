From Verif Require Import Database_model Database_spec.

Local Arguments Nat.ltb : simpl never.
Local Arguments Nat.eqb : simpl never.
(** * the map *)
Fixpoint ordered (m : map) : Prop :=
  match m with
  | [] => True
  | (k, _) :: m' => (forall k', find_key m' k' <> None -> k < k') /\ ordered m'
  end.

Lemma find_insert m k v : ordered m -> find_key m k = None -> ordered (insert_key m k v) /\ changed (find_key m) k (Some v) (find_key (insert_key m k v)).
Proof.
  unfold changed. induction m as [|[k1 v1] m IH]; cbn; intros O F.
  - rewrite Nat.eqb_refl. repeat split; auto; [intros k' H; congruence|]. intros k' N. destruct (Nat.eqb_spec k k'); congruence.
  - destruct O as [O1 O2]. destruct (Nat.eqb_spec k1 k) as [|N1]; [discriminate|]. specialize (IH O2 F) as (I1 & I2 & I3).
    destruct (Nat.ltb_spec k k1) as [L|L]; cbn.
    + rewrite Nat.eqb_refl. repeat split; auto.
      * intros k'. destruct (Nat.eqb_spec k1 k') as [<-|]; [intros _; exact L|]. intro H. specialize (O1 _ H). lia.
      * intros k' N. destruct (Nat.eqb_spec k k'); congruence.
    + destruct (Nat.eqb_spec k1 k) as [|_]; [congruence|]. repeat split; auto.
      * intros k' H. destruct (Nat.eq_dec k' k) as [->|N]; [lia|]. rewrite I3 in H by exact N. apply O1. exact H.
      * intros k' N. destruct (Nat.eqb_spec k1 k'); [reflexivity|]. apply I3. exact N.
Qed.

Lemma find_assign m k v : ordered m -> find_key m k <> None -> ordered (assign_key m k v) /\ changed (find_key m) k (Some v) (find_key (assign_key m k v)).
Proof.
  unfold changed. induction m as [|[k1 v1] m IH]; cbn; intros O F; [congruence|]. destruct O as [O1 O2].
  destruct (Nat.eqb_spec k1 k) as [->|N1]; cbn.
  - rewrite Nat.eqb_refl. repeat split; auto. intros k' N. destruct (Nat.eqb_spec k k'); congruence.
  - specialize (IH O2 F) as (I1 & I2 & I3). destruct (Nat.eqb_spec k1 k) as [|_]; [congruence|]. repeat split; auto.
    + intros k' H. destruct (Nat.eq_dec k' k) as [->|N]; [apply O1; exact F|]. rewrite I3 in H by exact N. auto.
    + intros k' N. destruct (Nat.eqb_spec k1 k'); [reflexivity|auto].
Qed.

Lemma find_erase m k : ordered m -> ordered (erase_key m k) /\ changed (find_key m) k None (find_key (erase_key m k)).
Proof.
  unfold changed. induction m as [|[k1 v1] m IH]; cbn; intros O; [auto|]. destruct O as [O1 O2].
  destruct (Nat.eqb_spec k1 k) as [->|N1]; cbn.
  - repeat split; auto.
    + destruct (find_key m k) eqn:F; [|reflexivity]. assert (k < k); [|lia]. apply O1. congruence.
    + intros k' N. destruct (Nat.eqb_spec k k'); congruence.
  - specialize (IH O2) as (I1 & I2 & I3). destruct (Nat.eqb_spec k1 k) as [|_]; [congruence|]. repeat split; auto.
    + intros k' H. apply O1. destruct (Nat.eq_dec k' k) as [->|N]; [congruence|]. rewrite I3 in H by exact N. exact H.
    + intros k' N. destruct (Nat.eqb_spec k1 k'); [reflexivity|auto].
Qed.

Lemma find_in m k : In k (List.map fst m) <-> find_key m k <> None.
Proof.
  induction m as [|[k1 v1] m IH]; cbn; [intuition congruence|]. destruct (Nat.eqb_spec k1 k) as [->|N].
  - split; [discriminate|auto].
  - rewrite IH. intuition congruence.
Qed.
Lemma size_map m : ordered m -> has_size (find_key m) (length m).
Proof.
  intro O. exists (List.map fst m). split; [|split; [apply map_length|intro k; apply find_in]].
  induction m as [|[k v] m IH]; cbn; [constructor|]. destruct O as [O1 O2]. constructor; [|auto].
  rewrite find_in. intro H. specialize (O1 _ H). lia.
Qed.
Lemma first_map m : ordered m -> match first_key m with
  | Some k => find_key m k <> None /\ forall k', find_key m k' <> None -> k <= k'
  | None => forall k, find_key m k = None end.
Proof.
  destruct m as [|[k v] m]; cbn; [auto|]. intros [O1 _]. rewrite Nat.eqb_refl. split; [discriminate|].
  intros k'. destruct (Nat.eqb_spec k k') as [->|]; [lia|]. intro H. specialize (O1 _ H). lia.
Qed.
Lemma next_map m k : match next_key m k with Some k' => find_key m k' <> None | None => True end.
Proof.
  induction m as [|[k1 v] m IH]; cbn; [exact I|]. destruct (k <? k1); cbn; [rewrite Nat.eqb_refl; discriminate|].
  destruct (next_key m k) as [k'|]; [|exact I]. destruct (k1 =? k'); [discriminate|exact IH].
Qed.

Lemma perform_ok m o : ordered m -> ordered (fst (perform m o)) /\ db_spec (find_key m) o (find_key (fst (perform m o))) (snd (perform m o)).
Proof.
  intro O. assert (Sm : same (find_key m) (find_key m)) by (intro; reflexivity).
  destruct o as [k v|k v|k v|k|k|k| |k| |]; cbn [perform].
  - destruct (find_key m k) eqn:F; cbn [fst snd]; [split; [exact O|constructor; [congruence|exact Sm]]|]. destruct (find_insert m k v O F). split; [assumption|]. constructor; assumption.
  - destruct (find_key m k) eqn:F; cbn [fst snd].
    + destruct (find_assign m k v O) as [A B]; [congruence|]. split; [assumption|]. constructor; [congruence|assumption].
    + split; [exact O|constructor; assumption].
  - destruct (find_key m k) eqn:F; cbn [fst snd].
    + destruct (find_assign m k v O) as [A B]; [congruence|]. split; [assumption|]. constructor; [congruence|assumption].
    + destruct (find_insert m k v O F). split; [assumption|]. constructor; assumption.
  - destruct (find_erase m k O) as [A B]. cbn [fst snd]. split; [assumption|]. destruct (find_key m k) eqn:F.
    + constructor; [congruence|assumption].
    + apply d_erase_not; [assumption|]. intro k'. destruct (Nat.eq_dec k' k) as [->|N]; [rewrite F; apply B|apply B; exact N].
  - cbn [fst snd]. split; [exact O|]. destruct (find_key m k) eqn:F; constructor; auto; congruence.
  - cbn [fst snd]. split; [exact O|]. destruct (find_key m k) eqn:F; constructor; auto; congruence.
  - cbn [fst snd]. split; [exact O|]. apply d_size; [apply size_map; exact O|exact Sm].
  - cbn [fst snd]. split; [exact O|]. destruct (find_key m k) eqn:F; constructor; auto; congruence.
  - cbn [fst snd]. split; [exact O|]. pose proof (first_map m O) as H. destruct (first_key m); constructor; try apply H; auto.
  - cbn [fst snd]. split; [exact O|]. constructor. exact Sm.
Qed.

Lemma perform_reads m o : writes o = false -> fst (perform m o) = m.
Proof. destruct o; cbn; try discriminate; reflexivity. Qed.
Lemma number_app {A} (f : A -> nat) l x : number_of f (l ++ [x]) = number_of f l + f x.
Proof. induction l as [|y l IH]; unfold number_of in *; cbn in *; lia. Qed.

(** * the invariant without copies of iterators *)
Definition owns (p : db_pc) : bool := match p with DIn o | DHalf o | DOut o _ => writes o | _ => false end.
Definition sharing (p : db_pc) : nat := match p with DIn o | DHalf o | DOut o _ => if writes o then 0 else 1 | DFound _ _ | DGuard _ _ => 1 | _ => 0 end.
Definition live (i : option (option nat)) : nat := match i with Some _ => 1 | None => 0 end.
Definition dphase (t : nat) (p : db_pc) evs : Prop :=
  match p with
  | DIdle => thread_phase t evs NotCalled
  | DLock o | DIn o | DHalf o | DOpen o | DOpenHalf o => thread_phase t evs (Called o)
  | DOut o r | DRet o r => thread_phase t evs (Done o r)
  | DFound o p | DGuard o p | DGot o p => thread_phase t evs (Done o (RIterator p))
  end.

Record DI (s : dstate) : Prop := {
  di_shared : shared s = number_of sharing (dpcs s) + number_of live (iters s);
  di_excl : forall t p, nth_error (dpcs s) t = Some p -> (owns p = true <-> excl s = Some t);
  di_owner : forall t, excl s = Some t -> nth_error (dpcs s) t <> None;
  di_alone : excl s <> None -> shared s = 0;
  di_ordered : ordered (db s);
  di_seq : sequential db_spec empty (devents s) (find_key (db s));
  di_phase : forall t p, nth_error (dpcs s) t = Some p -> dphase t p (devents s);
  di_none : forall t, nth_error (dpcs s) t = None -> thread_phase t (devents s) NotCalled }.

Lemma di_init n : DI (dinit n).
Proof.
  split; cbn; try (intros; discriminate); auto.
  - rewrite number_repeat by reflexivity. reflexivity.
  - intros t p H. apply nth_all in H as ->. cbn. split; discriminate.
  - constructor.
  - intros t p H. apply nth_all in H as ->. constructor.
  - constructor.
Qed.

Lemma di_go s s' t p p' : DI s -> nth_error (dpcs s) t = Some p -> dpcs s' = upd (dpcs s) t p' ->
  shared s' + sharing p + number_of live (iters s) = shared s + sharing p' + number_of live (iters s') ->
  ((excl s' = excl s /\ owns p = owns p') \/ (excl s = None /\ excl s' = Some t /\ owns p' = true) \/ (owns p = true /\ excl s' = None /\ owns p' = false)) ->
  (excl s' <> None -> shared s' = 0) ->
  ordered (db s') -> sequential db_spec empty (devents s') (find_key (db s')) ->
  dphase t p' (devents s') -> (forall u ph, u <> t -> thread_phase u (devents s) ph -> thread_phase u (devents s') ph) -> DI s'.
Proof.
  intros I P U Sh L Al O Sq Ph Ot. pose proof (di_excl s I) as K. split; auto.
  - pose proof (di_shared s I). rewrite U. pose proof (number_upd sharing _ _ p' _ P). lia.
  - rewrite U. intros u q Hu. destruct (nth_upd _ _ _ _ _ Hu) as [[-> ->]|[N X]].
    + destruct L as [[L1 L2]|[(L1 & L2 & L3)|(L1 & L2 & L3)]]; rewrite ?L1, ?L2, ?L3; try (split; congruence). rewrite <- L2. apply K. exact P.
    + destruct L as [[L1 L2]|[(L1 & L2 & L3)|(L1 & L2 & L3)]].
      * rewrite L1. apply K. exact X.
      * rewrite L2. rewrite (K _ _ X), L1. split; congruence.
      * rewrite L2. rewrite (K _ _ X). pose proof (proj1 (K _ _ P) L1). split; congruence.
  - intros u Hu Z. rewrite U in Z. apply nth_error_None in Z. rewrite upd_length in Z. apply nth_error_None in Z.
    destruct L as [[L1 L2]|[(L1 & L2 & L3)|(L1 & L2 & L3)]]; try congruence. apply (di_owner s I u); [congruence|exact Z].
  - rewrite U. intros u q Hu. destruct (nth_upd _ _ _ _ _ Hu) as [[-> ->]|[N X]]; [exact Ph|]. pose proof (di_phase s I _ _ X) as B. destruct q; cbn in *; apply Ot; auto.
  - rewrite U. intros u Hu. destruct (Nat.eq_dec t u) as [<-|N]; [rewrite (nth_upd_same _ _ _ _ P) in Hu; discriminate|].
    rewrite nth_upd_other in Hu by exact N. apply Ot; [auto|]. apply (di_none s I). exact Hu.
Qed.

(** iterators only *)
Lemma di_iter s s' : DI s -> dpcs s' = dpcs s -> excl s' = excl s -> db s' = db s -> devents s' = devents s ->
  shared s' + number_of live (iters s) = shared s + number_of live (iters s') -> shared s' <= shared s -> DI s'.
Proof.
  intros I P E D V Sh Le. split; rewrite ?P, ?E, ?D, ?V; try apply I.
  - pose proof (di_shared s I). lia.
  - intro N. pose proof (di_alone s I N). lia.
Qed.

Ltac same_ev := intros u ph _ H; exact H.
Ltac other_ev := intros u ph N H; apply ph_other; [cbn; congruence|exact H].

Lemma unshare_fields s : dpcs (unshare s) = dpcs s /\ excl (unshare s) = excl s /\ db (unshare s) = db s /\ devents (unshare s) = devents s /\ iters (unshare s) = iters s /\
  raced (unshare s) = raced s /\ shared (unshare s) = shared s - 1 /\ (0 < shared s -> misused (unshare s) = misused s).
Proof. unfold unshare. destruct (shared s) as [|n] eqn:E; cbn; rewrite ?E, ?orb_false_r; repeat split; lia. Qed.

Lemma may_share_free b s : may_share b s = true -> excl s = None.
Proof. unfold may_share. destruct (excl s); [discriminate|reflexivity]. Qed.
Lemma may_own_free s : may_own s = true -> excl s = None /\ shared s = 0.
Proof. unfold may_own. destruct (excl s); [discriminate|]. intro H. apply Nat.eqb_eq in H. auto. Qed.

Lemma sharing_le s t p : DI s -> nth_error (dpcs s) t = Some p -> sharing p <= shared s.
Proof. intros I P. rewrite (di_shared s I). pose proof (number_ge sharing _ _ _ P). lia. Qed.

Lemma di_step b s l s' : DI s -> no_copy l -> dstep b s l = Some s' -> DI s'.
Proof.
  intros I Al E. destruct l as [t o|t|i|i|i|i]; cbn [dstep no_copy] in *.
  - unfold dcall in E. destruct (nth_error (dpcs s) t) as [[]|] eqn:P; try discriminate. injection E as <-. pose proof (di_phase s I _ _ P) as Pt. cbn in Pt.
    eapply (di_go s); [exact I|exact P|reflexivity| | | | | | |].
    + cbn. destruct o; cbn; lia.
    + left. split; [reflexivity|]. destruct o; reflexivity.
    + apply I.
    + apply I.
    + cbn. constructor. apply I.
    + destruct o; cbn; constructor; exact Pt.
    + cbn. other_ev.
  - unfold drun in E. destruct (nth_error (dpcs s) t) as [p|] eqn:P; [|discriminate]. pose proof (di_phase s I _ _ P) as Pt. pose proof (di_excl s I _ _ P) as Ow.
    pose proof (sharing_le s t p I P) as Le.
    destruct p as [|o|o|o|o r|o q|o q|o|o|o q|o r]; cbn [dphase owns sharing] in *.
    + discriminate.
    + destruct (writes o) eqn:W.
      * destruct (may_own s) eqn:F; [|discriminate]. injection E as <-. apply may_own_free in F as [F1 F2].
        eapply (di_go s); [exact I|exact P|reflexivity| | | | | | |]; cbn; rewrite ?W; try apply I; auto; try lia; try same_ev.
      * destruct (may_share b s) eqn:F; [|discriminate]. injection E as <-. apply may_share_free in F.
        eapply (di_go s); [exact I|exact P|reflexivity| | | | | | |]; cbn; rewrite ?W; try apply I; auto; try lia; try congruence; try same_ev.
    + injection E as <-. destruct (writes o) eqn:W; (eapply (di_go s); [exact I|exact P|reflexivity| | | | | | |]; cbn; rewrite ?W; try apply I; auto; try lia; try same_ev).
    + destruct (perform (db s) o) as [m r] eqn:Pf. injection E as <-. pose proof (perform_ok (db s) o (di_ordered s I)) as [O Sp]. rewrite Pf in O, Sp. cbn [fst snd] in O, Sp.
      assert (Cs : (exists k q, o = Find k /\ r = RIterator q) \/ match o, r with Find _, RIterator p => DFound o p | _, _ => DOut o r end = DOut o r).
      { destruct o; auto. cbn in Pf. injection Pf as <- <-. left. eauto. }
      destruct Cs as [(k & q & -> & ->)|Cs].
      * eapply (di_go s); [exact I|exact P|reflexivity| | | | | | |]; cbn; try apply I; auto; try lia.
        -- econstructor; [apply I|exact Sp].
        -- constructor; exact Pt.
        -- other_ev.
      * rewrite Cs. eapply (di_go s); [exact I|exact P|reflexivity| | | | | | |]; cbn; try apply I; auto; try lia.
        -- econstructor; [apply I|exact Sp].
        -- constructor; exact Pt.
        -- other_ev.
    + injection E as <-. destruct (writes o) eqn:W.
      * eapply (di_go s); [exact I|exact P|reflexivity| | | | | | |]; cbn; rewrite ?W; try apply I; auto; try lia; try congruence; try same_ev.
      * destruct (unshare_fields s) as (U1 & U2 & U3 & U4 & U5 & U6 & U7 & U8).
        eapply (di_go s); [exact I|exact P|cbn; rewrite U1; reflexivity| | | | | | |]; cbn; rewrite ?W, ?U1, ?U2, ?U3, ?U4, ?U5, ?U7; try apply I; auto; try lia.
        -- intro N. pose proof (di_alone s I N). lia.
    + destruct (may_share b s) eqn:F; [|discriminate]. injection E as <-. apply may_share_free in F.
      eapply (di_go s); [exact I|exact P|reflexivity| | | | | | |]; cbn; rewrite ?number_app; cbn; try apply I; auto; try lia; try congruence; try same_ev.
    + injection E as <-. destruct (unshare_fields s) as (U1 & U2 & U3 & U4 & U5 & U6 & U7 & U8).
      eapply (di_go s); [exact I|exact P|cbn; rewrite U1; reflexivity| | | | | | |]; cbn; rewrite ?U1, ?U2, ?U3, ?U4, ?U5, ?U7; try apply I; auto; try lia.
      * intro N. pose proof (di_alone s I N). lia.
    + injection E as <-. eapply (di_go s); [exact I|exact P|reflexivity| | | | | | |]; cbn; try apply I; auto; try lia; try same_ev.
    + destruct (perform (db s) o) as [m r] eqn:Pf. destruct r as [| | | |q]; try discriminate. injection E as <-.
      pose proof (perform_ok (db s) o (di_ordered s I)) as [O Sp].
      assert (W : writes o = false). { destruct o; cbn in *; auto; destruct (find_key (db s) k) in Pf; discriminate. }
      rewrite (perform_reads _ _ W) in Sp. rewrite Pf in Sp. cbn [snd] in Sp.
      eapply (di_go s); [exact I|exact P|reflexivity| | | | | | |]; cbn; try apply I; auto; try lia.
      * econstructor; [apply I|exact Sp].
      * constructor; exact Pt.
      * other_ev.
    + destruct (may_share b s) eqn:F; [|discriminate]. injection E as <-. apply may_share_free in F.
      eapply (di_go s); [exact I|exact P|reflexivity| | | | | | |]; cbn; rewrite ?number_app; cbn; try apply I; auto; try lia; try congruence; try same_ev.
    + injection E as <-. eapply (di_go s); [exact I|exact P|reflexivity| | | | | | |]; cbn; try apply I; auto; try lia.
      * constructor. apply I.
      * eapply ph_ret; exact Pt.
      * other_ev.
  - unfold iter_use in E. destruct (nth_error (iters s) i) as [[[k|]|]|] eqn:P; try discriminate. injection E as <-. apply (di_iter s); cbn; auto.
  - unfold iter_next in E. destruct (nth_error (iters s) i) as [[[k|]|]|] eqn:P; try discriminate. injection E as <-. apply (di_iter s); cbn; auto.
    pose proof (number_upd live _ _ (Some (next_key (db s) k)) _ P). cbn in *. lia.
  - unfold iter_drop in E. destruct (nth_error (iters s) i) as [[q|]|] eqn:P; try discriminate. injection E as <-.
    destruct (unshare_fields s) as (U1 & U2 & U3 & U4 & U5 & U6 & U7 & U8). pose proof (number_upd live _ _ None _ P) as H. pose proof (number_ge live _ _ _ P) as G. pose proof (di_shared s I). cbn in H, G.
    apply (di_iter s); cbn; auto; lia.
  - destruct Al.
Qed.

Lemma di_reach b n s : dreachable b no_copy n s -> DI s.
Proof. induction 1 as [|s l s' R IH A E]; [apply di_init|]. exact (di_step b s l s' IH A E). Qed.

Lemma find_no_copy l : find_only l -> no_copy l.
Proof. destruct l as [t []| | | | |]; cbn; auto. Qed.
Lemma find_reach b n s : dreachable b find_only n s -> dreachable b no_copy n s.
Proof. induction 1 as [|s l s' R IH A E]; [constructor|]. econstructor; [exact IH|exact (find_no_copy _ A)|exact E]. Qed.

(** * linearizability, no race, valid iterators *)
Lemma linear_of s : DI s -> linearizable db_spec empty (devents s).
Proof.
  intro I. split; [eexists; apply I|]. intro t. destruct (nth_error (dpcs s) t) as [p|] eqn:P; [|eexists; exact (di_none s I _ P)].
  pose proof (di_phase s I _ _ P) as H. destruct p; cbn in H; eauto.
Qed.

Definition closed (p : db_pc) : Prop := match p with DOpen _ | DOpenHalf _ | DGot _ _ => False | _ => True end.
Record FI (s : dstate) : Prop := {
  fi_closed : forall t p, nth_error (dpcs s) t = Some p -> closed p;
  fi_raced : raced s = false;
  fi_misused : misused s = false;
  fi_iters : forall i k, nth_error (iters s) i = Some (Some (Some k)) -> key_of s k;
  fi_found : forall t o k, nth_error (dpcs s) t = Some (DFound o (Some k)) -> key_of s k }.

Lemma no_writer s : DI s -> excl s = None -> some_writes s = false.
Proof.
  intros I E. unfold some_writes. apply negb_false_iff, Nat.eqb_eq, number_zero. intros t p P.
  pose proof (di_excl s I _ _ P) as O. destruct p; cbn in *; auto. destruct (writes o); auto. destruct O as [O _]. specialize (O eq_refl). congruence.
Qed.
Lemma not_excl s : DI s -> 0 < shared s -> excl s = None.
Proof. intros I L. destruct (excl s) eqn:E; [|reflexivity]. assert (shared s = 0); [apply I; congruence|lia]. Qed.
Lemma alive_shared s i p : DI s -> nth_error (iters s) i = Some (Some p) -> 0 < shared s.
Proof. intros I P. rewrite (di_shared s I). pose proof (number_ge live _ _ _ P). cbn in *. lia. Qed.

Lemma owner_alone s t o : DI s -> FI s -> nth_error (dpcs s) t = Some (DIn o) -> writes o = true -> some_writes s = false /\ some_reads s = false.
Proof.
  intros I F P W. pose proof (proj1 (di_excl s I _ _ P) W) as Ow. assert (Z : shared s = 0) by (apply I; congruence).
  pose proof (di_shared s I) as Sh. split; unfold some_writes, some_reads; apply negb_false_iff, Nat.eqb_eq, number_zero; intros u q Q.
  - pose proof (di_excl s I _ _ Q) as O. destruct q; cbn in *; auto. destruct (writes o0) eqn:W'; auto. destruct O as [O _]. specialize (O eq_refl).
    rewrite Ow in O. injection O as ->. rewrite P in Q. discriminate.
  - pose proof (number_ge sharing _ _ _ Q) as G. pose proof (fi_closed s F _ _ Q). destruct q; cbn in *; auto; [|contradiction]. destruct (writes o0); lia.
Qed.

Lemma fi_go s s' t p p' : FI s -> nth_error (dpcs s) t = Some p -> dpcs s' = upd (dpcs s) t p' -> closed p' -> raced s' = false -> misused s' = false ->
  iters s' = iters s -> db s' = db s -> (forall o k, p' = DFound o (Some k) -> key_of s k) -> FI s'.
Proof.
  intros F P U C R M It D Fo. split; auto; unfold key_of; rewrite ?U, ?It, ?D.
  - intros u q Q. destruct (nth_upd _ _ _ _ _ Q) as [[-> ->]|[N X]]; [exact C|exact (fi_closed s F _ _ X)].
  - apply (fi_iters s F).
  - intros u o k Q. destruct (nth_upd _ _ _ _ _ Q) as [[-> X]|[N X]]; [apply (Fo o); congruence|exact (fi_found s F _ _ _ X)].
Qed.

Lemma fi_step b s l s' : DI s -> FI s -> find_only l -> dstep b s l = Some s' -> FI s'.
Proof.
  intros I F Al E. destruct l as [t o|t|i|i|i|i]; cbn [dstep] in *.
  - unfold dcall in E. destruct (nth_error (dpcs s) t) as [[]|] eqn:P; try discriminate. injection E as <-.
    eapply (fi_go s); [exact F|exact P|reflexivity| | | | | |]; try apply F; try reflexivity; destruct o; cbn in *; auto; discriminate.
  - unfold drun in E. destruct (nth_error (dpcs s) t) as [p|] eqn:P; [|discriminate]. pose proof (sharing_le s t p I P) as Le. pose proof (fi_closed s F _ _ P) as Cl.
    destruct p as [|o|o|o|o r|o q|o q|o|o|o q|o r]; cbn [sharing closed] in *; try contradiction.
    + discriminate.
    + destruct (writes o) eqn:W.
      * destruct (may_own s) eqn:M; [|discriminate]. injection E as <-. eapply (fi_go s); [exact F|exact P|reflexivity| | | | | |]; try apply F; cbn; auto; discriminate.
      * destruct (may_share b s) eqn:M; [|discriminate]. injection E as <-. eapply (fi_go s); [exact F|exact P|reflexivity| | | | | |]; try apply F; cbn; auto; discriminate.
    + injection E as <-. destruct (writes o) eqn:W.
      * destruct (owner_alone s t o I F P W) as [A B]. eapply (fi_go s); [exact F|exact P|reflexivity| | | | | |]; cbn; rewrite ?A, ?B, ?orb_false_r; try apply F; auto; discriminate.
      * assert (A : some_writes s = false) by (apply no_writer; [exact I|apply not_excl; [exact I|lia]]).
        eapply (fi_go s); [exact F|exact P|reflexivity| | | | | |]; cbn; rewrite ?A, ?orb_false_r; try apply F; auto; discriminate.
    + destruct (perform (db s) o) as [m r] eqn:Pf. injection E as <-. destruct (writes o) eqn:W.
      * assert (Cs : match o, r with Find _, RIterator p => DFound o p | _, _ => DOut o r end = DOut o r) by (destruct o; auto; discriminate). rewrite Cs.
        pose proof (proj1 (di_excl s I _ _ P) W) as Ow. assert (Z : shared s = 0) by (apply I; congruence). pose proof (di_shared s I) as Sh.
        split; cbn; try apply F.
        -- intros u q Q. destruct (nth_upd _ _ _ _ _ Q) as [[-> ->]|[N X]]; [exact Logic.I|exact (fi_closed s F _ _ X)].
        -- intros i k Hi. pose proof (alive_shared s _ _ I Hi). lia.
        -- intros u o' k Q. destruct (nth_upd _ _ _ _ _ Q) as [[-> X]|[N X]]; [discriminate|]. pose proof (sharing_le s _ _ I X) as G. cbn in G. lia.
      * assert (Db : m = db s) by (pose proof (perform_reads (db s) o W) as H; rewrite Pf in H; exact H). subst m.
        eapply (fi_go s); [exact F|exact P|reflexivity| | | | | |]; cbn; try apply F; auto.
        -- destruct o, r; exact Logic.I.
        -- intros o' k H. destruct o; cbn in H; try discriminate. cbn in Pf. injection Pf as <-. cbn in H. injection H as _ H. unfold key_of.
           destruct (find_key (db s) k0) eqn:Fk; [|discriminate]. injection H as <-. congruence.
    + injection E as <-. destruct (writes o) eqn:W.
      * eapply (fi_go s); [exact F|exact P|reflexivity| | | | | |]; cbn; try apply F; auto; discriminate.
      * destruct (unshare_fields s) as (U1 & U2 & U3 & U4 & U5 & U6 & U7 & U8).
        eapply (fi_go s); [exact F|exact P|cbn; rewrite U1; reflexivity| | | | | |]; cbn; rewrite ?U6, ?U5, ?U3; try apply F; auto; try discriminate. rewrite U8 by lia. apply F.
    + destruct (may_share b s) eqn:M; [|discriminate]. injection E as <-. split; cbn; try apply F.
      * intros u q' Q. destruct (nth_upd _ _ _ _ _ Q) as [[-> ->]|[N X]]; [exact Logic.I|exact (fi_closed s F _ _ X)].
      * intros i k Hi. destruct (Nat.lt_ge_cases i (length (iters s))) as [L|L].
        -- rewrite nth_error_app1 in Hi by exact L. exact (fi_iters s F _ _ Hi).
        -- rewrite nth_error_app2 in Hi by exact L. destruct (i - length (iters s)) as [|[|]]; try discriminate. injection Hi as ->. exact (fi_found s F _ _ _ P).
      * intros u o' k Q. destruct (nth_upd _ _ _ _ _ Q) as [[-> X]|[N X]]; [discriminate|exact (fi_found s F _ _ _ X)].
    + injection E as <-. destruct (unshare_fields s) as (U1 & U2 & U3 & U4 & U5 & U6 & U7 & U8).
      eapply (fi_go s); [exact F|exact P|cbn; rewrite U1; reflexivity| | | | | |]; cbn; rewrite ?U6, ?U5, ?U3; try apply F; auto; try discriminate. rewrite U8 by lia. apply F.
    + injection E as <-. eapply (fi_go s); [exact F|exact P|reflexivity| | | | | |]; cbn; try apply F; auto; discriminate.
  - unfold iter_use in E. destruct (nth_error (iters s) i) as [[[k|]|]|] eqn:P; try discriminate. injection E as <-.
    pose proof (no_writer s I (not_excl s I (alive_shared s _ _ I P))) as A. pose proof (fi_iters s F _ _ P) as K. unfold key_of in K.
    split; cbn; try apply F; rewrite ?A, ?orb_false_r; try apply F. destruct (find_key (db s) k); [|congruence]. rewrite orb_false_r. apply F.
  - unfold iter_next in E. destruct (nth_error (iters s) i) as [[[k|]|]|] eqn:P; try discriminate. injection E as <-.
    pose proof (no_writer s I (not_excl s I (alive_shared s _ _ I P))) as A. pose proof (fi_iters s F _ _ P) as K. unfold key_of in K.
    split; cbn; try apply F; rewrite ?A, ?orb_false_r; try apply F.
    + destruct (find_key (db s) k); [|congruence]. rewrite orb_false_r. apply F.
    + intros j k' Hj. destruct (nth_upd _ _ _ _ _ Hj) as [[-> X]|[N X]]; [|exact (fi_iters s F _ _ X)].
      injection X as X. pose proof (next_map (db s) k) as H. rewrite <- X in H. exact H.
  - unfold iter_drop in E. destruct (nth_error (iters s) i) as [[q|]|] eqn:P; try discriminate. injection E as <-.
    destruct (unshare_fields s) as (U1 & U2 & U3 & U4 & U5 & U6 & U7 & U8). pose proof (alive_shared s _ _ I P) as G.
    split; cbn; unfold key_of; cbn; rewrite ?U1, ?U3, ?U6; try apply F.
    + rewrite U8 by exact G. apply F.
    + intros j k' Hj. destruct (nth_upd _ _ _ _ _ Hj) as [[-> X]|[N X]]; [discriminate|exact (fi_iters s F _ _ X)].
  - destruct Al.
Qed.

Lemma fi_reach b n s : dreachable b find_only n s -> DI s /\ FI s.
Proof.
  induction 1 as [|s l s' R [I F] A E].
  - split; [apply di_init|]. split; cbn; auto.
    + intros t p P. apply nth_all in P as ->. exact Logic.I.
    + intros [|i] k H; discriminate.
    + intros t o k P. apply nth_all in P. discriminate.
  - split; [exact (di_step b s l s' I (find_no_copy _ A) E)|exact (fi_step b s l s' I F A E)].
Qed.

Lemma db_linear_lemma : forall b n s, dreachable b find_only n s -> linearizable db_spec empty (devents s) /\ raced s = false /\ misused s = false.
Proof. intros b n s R. destruct (fi_reach b n s R) as [I F]. split; [exact (linear_of s I)|]. split; apply F. Qed.

Lemma valid_lemma : forall b n s, dreachable b find_only n s -> forall i k, nth_error (iters s) i = Some (Some (Some k)) -> key_of s k.
Proof. intros b n s R. destruct (fi_reach b n s R) as [I F]. apply F. Qed.

Lemma stable_lemma : forall b n s l s', dreachable b no_copy n s -> no_copy l -> dstep b s l = Some s' -> alive s -> db s' = db s.
Proof.
  intros b n s l s' R A E (i & p & Hi). pose proof (di_reach b n s R) as I. pose proof (alive_shared s _ _ I Hi) as G. pose proof (not_excl s I G) as Ne.
  destruct l as [t o|t|j|j|j|j]; cbn [dstep] in E.
  - unfold dcall in E. destruct (nth_error (dpcs s) t) as [[]|]; try discriminate. injection E as <-. reflexivity.
  - unfold drun in E. destruct (nth_error (dpcs s) t) as [q|] eqn:P; [|discriminate]. destruct (unshare_fields s) as (U1 & U2 & U3 & U4 & U5 & U6 & U7 & U8).
    destruct q as [|o|o|o|o r|o q|o q|o|o|o q|o r]; try discriminate.
    + destruct (writes o); [destruct (may_own s)|destruct (may_share b s)]; try discriminate; injection E as <-; reflexivity.
    + injection E as <-. destruct (writes o); reflexivity.
    + destruct (perform (db s) o) as [m r] eqn:Pf. injection E as <-. cbn. destruct (writes o) eqn:W.
      * pose proof (proj1 (di_excl s I _ _ P) W). congruence.
      * pose proof (perform_reads (db s) o W) as H. rewrite Pf in H. exact H.
    + injection E as <-. destruct (writes o); [reflexivity|exact U3].
    + destruct (may_share b s); [|discriminate]. injection E as <-. reflexivity.
    + injection E as <-. exact U3.
    + injection E as <-. reflexivity.
    + destruct (perform (db s) o) as [m []]; try discriminate. injection E as <-. reflexivity.
    + destruct (may_share b s); [|discriminate]. injection E as <-. reflexivity.
    + injection E as <-. reflexivity.
  - unfold iter_use in E. destruct (nth_error (iters s) j) as [[[k|]|]|]; try discriminate. injection E as <-. reflexivity.
  - unfold iter_next in E. destruct (nth_error (iters s) j) as [[[k|]|]|]; try discriminate. injection E as <-. reflexivity.
  - unfold iter_drop in E. destruct (nth_error (iters s) j) as [[q|]|]; try discriminate. injection E as <-. apply unshare_fields.
  - destruct A.
Qed.

(** * progress *)
Definition open_ok (p : db_pc) : Prop := match p with DOpen o | DOpenHalf o => o = Begin \/ o = End | _ => True end.
Lemma open_reach b n s : dreachable b no_copy n s -> forall t p, nth_error (dpcs s) t = Some p -> open_ok p.
Proof.
  induction 1 as [|s l s' R IH A E]; [intros t p P; apply nth_all in P as ->; exact I|].
  assert (K : forall t p', dpcs s' = upd (dpcs s) t p' -> open_ok p' -> forall u p, nth_error (dpcs s') u = Some p -> open_ok p).
  { intros t p' U O u p P. rewrite U in P. destruct (nth_upd _ _ _ _ _ P) as [[-> ->]|[N X]]; [exact O|exact (IH _ _ X)]. }
  assert (K0 : dpcs s' = dpcs s -> forall u p, nth_error (dpcs s') u = Some p -> open_ok p) by (intros U u p P; rewrite U in P; exact (IH _ _ P)).
  destruct (unshare_fields s) as (U1 & _).
  destruct l as [t o|t|j|j|j|j]; cbn [dstep] in E.
  - unfold dcall in E. destruct (nth_error (dpcs s) t) as [[]|]; try discriminate. injection E as <-. eapply K; [reflexivity|]. destruct o; cbn; auto.
  - unfold drun in E. destruct (nth_error (dpcs s) t) as [q|] eqn:P; [|discriminate]. pose proof (IH _ _ P) as Oq.
    destruct q as [|o|o|o|o r|o q|o q|o|o|o q|o r]; try discriminate.
    + destruct (writes o); [destruct (may_own s)|destruct (may_share b s)]; try discriminate; injection E as <-; (eapply K; [reflexivity|exact I]).
    + injection E as <-. destruct (writes o); (eapply K; [reflexivity|exact I]).
    + destruct (perform (db s) o) as [m r]. injection E as <-. eapply K; [reflexivity|]. destruct o, r; exact I.
    + injection E as <-. destruct (writes o); (eapply K; [cbn; rewrite ?U1; reflexivity|exact I]).
    + destruct (may_share b s); [|discriminate]. injection E as <-. eapply K; [reflexivity|exact I].
    + injection E as <-. eapply K; [cbn; rewrite U1; reflexivity|exact I].
    + injection E as <-. eapply K; [reflexivity|exact Oq].
    + destruct (perform (db s) o) as [m []]; try discriminate. injection E as <-. eapply K; [reflexivity|exact I].
    + destruct (may_share b s); [|discriminate]. injection E as <-. eapply K; [reflexivity|exact I].
    + injection E as <-. eapply K; [reflexivity|exact I].
  - unfold iter_use in E. destruct (nth_error (iters s) j) as [[[k|]|]|]; try discriminate. injection E as <-. apply K0. reflexivity.
  - unfold iter_next in E. destruct (nth_error (iters s) j) as [[[k|]|]|]; try discriminate. injection E as <-. apply K0. reflexivity.
  - unfold iter_drop in E. destruct (nth_error (iters s) j) as [[q|]|]; try discriminate. injection E as <-. apply K0. exact U1.
  - destruct A.
Qed.

(** a thread that neither waits for the mutex nor is idle can go on *)
Lemma can_go b s t p : open_ok p -> nth_error (dpcs s) t = Some p -> p <> DIdle -> (forall o, p <> DLock o) -> (may_share b s = true \/ sharing p = 0 /\ (forall o q, p <> DGot o q) \/ exists o q, p = DGuard o q) ->
  (forall o q, p = DFound o q -> may_share b s = true) -> exists s', drun b s t = Some s'.
Proof.
  intros O P N1 N2 M Mf. unfold drun. rewrite P. destruct p as [|o|o|o|o r|o q|o q|o|o|o q|o r]; eauto; try congruence.
  - destruct (perform (db s) o). eauto.
  - rewrite (Mf _ _ eq_refl). eauto.
  - destruct O as [-> | ->]; cbn; eauto.
  - destruct M as [-> |[[_ M]|(o' & q' & M)]]; eauto; [destruct (M _ _ eq_refl)|discriminate].
Qed.

Lemma db_progress_lemma : forall n s, dreachable false no_copy n s -> forall t p, nth_error (dpcs s) t = Some p -> p <> DIdle ->
  (~ alive s \/ wants_excl p = 0) -> exists u s', dstep false s (DRun u) = Some s'.
Proof.
  intros n s R t p P N A. pose proof (di_reach _ _ _ R) as I. pose proof (open_reach _ _ _ R) as O. cbn [dstep].
  destruct (excl s) as [u|] eqn:X.
  - exists u. destruct (nth_error (dpcs s) u) as [q|] eqn:Q; [|destruct (di_owner s I u X Q)]. pose proof (proj2 (di_excl s I _ _ Q) X) as W.
    unfold drun. rewrite Q. destruct q as [|o|o|o|o r|o q|o q|o|o|o q|o r]; try discriminate; eauto. destruct (perform (db s) o). eauto.
  - assert (M : may_share false s = true) by (unfold may_share; rewrite X; reflexivity).
    assert (C : forall u q, nth_error (dpcs s) u = Some q -> q <> DIdle -> wants_excl q = 0 -> exists s', drun false s u = Some s').
    { intros u q Q N1 N2. destruct q as [|o|o|o|o r|o q|o q|o|o|o q|o r]; try (eapply can_go; [exact (O _ _ Q)|exact Q|discriminate|discriminate|left; exact M|intros; exact M]); [congruence|].
      unfold drun. rewrite Q. cbn in N2. destruct (writes o); [discriminate|]. rewrite M. eauto. }
    destruct (wants_excl p) eqn:Wp; [exists t; eapply C; eauto|].
    destruct A as [A|A]; [|discriminate].
    destruct (shared s) as [|k] eqn:Sh.
    + exists t. unfold drun. rewrite P. destruct p; try discriminate. cbn in Wp. destruct (writes o); [|discriminate]. unfold may_own. rewrite X, Sh. eexists. reflexivity.
    + pose proof (di_shared s I) as D. rewrite Sh in D.
      assert (L : number_of live (iters s) = 0).
      { apply number_zero. intros i x Hi. destruct x as [q|]; [|reflexivity]. destruct A. exists i, q. exact Hi. }
      assert (Z : exists u q, nth_error (dpcs s) u = Some q /\ 0 < sharing q).
      { assert (Y : number_of sharing (dpcs s) <> 0) by lia. revert Y. generalize (dpcs s). clear. intros l Y. induction l as [|x l IH]; [destruct Y; reflexivity|].
        destruct (sharing x) eqn:E; [|exists 0, x; split; [reflexivity|lia]]. destruct IH as (u & q & A & B); [unfold number_of in *; cbn in *; lia|]. exists (S u), q. auto. }
      destruct Z as (u & q & Q & Z). exists u. eapply C; [exact Q| |]; destruct q; cbn in *; try lia; try discriminate.
Qed.

(** * refutations *)
Definition druns (t k : nat) : list dlabel := repeat (DRun t) k.
(** thread 0 has added the keys 1 and 2 *)
Definition two_keys : list dlabel := [DCall 0 (Add 1 10)] ++ druns 0 5 ++ [DCall 0 (Add 2 20)] ++ druns 0 5.

Lemma dsteps_reach b (allowed : dlabel -> Prop) n (chk : dlabel -> bool) ls : (forall l, chk l = true -> allowed l) -> forall s s', dreachable b allowed n s -> forallb chk ls = true -> dsteps b s ls = Some s' -> dreachable b allowed n s'.
Proof.
  intro C. induction ls as [|l ls IH]; cbn [dsteps forallb]; intros s s' R F E; [injection E as <-; exact R|].
  apply andb_true_iff in F as [F1 F2]. destruct (dstep b s l) as [s0|] eqn:E0; [|discriminate]. apply (IH s0); auto. econstructor; eauto.
Qed.
Definition not_copied (l : dlabel) : bool := match l with ICopy _ => false | _ => true end.
Lemma not_copied_ok l : not_copied l = true -> no_copy l.
Proof. destruct l; cbn; auto; discriminate. Qed.
Definition only_found (l : dlabel) : bool := match l with ICopy _ | DCall _ Begin | DCall _ End => false | _ => true end.
Lemma only_found_ok l : only_found l = true -> find_only l.
Proof. destruct l as [t []| | | | |]; cbn; auto; discriminate. Qed.

(** begin reads the map while another thread writes; and an iterator to an erased element *)
Lemma begin_refute :
  (exists ls s, dsteps false (dinit 2) ls = Some s /\ forallb not_copied ls = true /\ raced s = true) /\
  (exists ls s, dsteps false (dinit 2) ls = Some s /\ forallb not_copied ls = true /\ raced s = false /\
     nth_error (iters s) 0 = Some (Some (Some 1)) /\ ~ key_of s 1 /\ exists s', dstep false s (IUse 0) = Some s' /\ misused s' = true).
Proof.
  split.
  - exists (two_keys ++ [DCall 0 (Erase 1); DRun 0; DRun 0; DCall 1 Begin; DRun 1]). eexists. split; [vm_compute; reflexivity|]. split; reflexivity.
  - exists (two_keys ++ [DCall 1 Begin; DRun 1; DRun 1; DCall 0 (Erase 1)] ++ druns 0 5 ++ [DRun 1; DRun 1]). eexists. split; [vm_compute; reflexivity|].
    split; [reflexivity|]. split; [reflexivity|]. split; [reflexivity|]. split; [intro H; apply H; reflexivity|]. eexists. split; [vm_compute; reflexivity|reflexivity].
Qed.

(** a copied iterator unlocks a mutex nobody has locked; the map changes while it exists *)
Lemma copy_refute :
  (exists ls s, dsteps false (dinit 2) ls = Some s /\ raced s = false /\ misused s = true) /\
  (exists ls s s', dsteps false (dinit 2) ls = Some s /\ misused s = false /\ alive s /\ dstep false s (DRun 1) = Some s' /\ alive s' /\ db s = [(1, 10); (2, 20)] /\ db s' = [(2, 20)]).
Proof.
  split.
  - exists (two_keys ++ [DCall 0 (Find 1)] ++ druns 0 6 ++ [ICopy 0; IDrop 0; IDrop 1]). eexists. split; [vm_compute; reflexivity|]. split; reflexivity.
  - exists (two_keys ++ [DCall 0 (Find 1)] ++ druns 0 6 ++ [ICopy 0; IDrop 0; DCall 1 (Erase 1)] ++ druns 1 2). eexists. eexists. split; [vm_compute; reflexivity|].
    split; [reflexivity|]. split; [exists 1, (Some 1); reflexivity|]. split; [vm_compute; reflexivity|]. split; [exists 1, (Some 1); reflexivity|]. split; reflexivity.
Qed.

(** with writers first, find waits for ever for a writer that waits for it *)
Lemma deadlock_refute : exists ls s, dsteps true (dinit 2) ls = Some s /\ forallb only_found ls = true /\
  nth_error (dpcs s) 0 = Some (DFound (Find 1) (Some 1)) /\ nth_error (dpcs s) 1 = Some (DLock (Add 3 30)) /\ ~ alive s /\ forall l, dstep true s l = None.
Proof.
  exists (two_keys ++ [DCall 0 (Find 1); DRun 0; DRun 0; DRun 0; DCall 1 (Add 3 30)]). eexists. split; [vm_compute; reflexivity|].
  split; [reflexivity|]. split; [reflexivity|]. split; [reflexivity|]. split.
  - intros (i & p & H). destruct i; discriminate.
  - intros [t o|t|i|i|i|i]; cbn [dstep].
    1-2: destruct t as [|[|[|t]]]; reflexivity.
    all: destruct i; reflexivity.
Qed.

(** a thread that keeps an iterator and writes waits for ever for itself *)
Lemma own_iterator_refute : exists ls s, dsteps false (dinit 1) ls = Some s /\ forallb only_found ls = true /\
  nth_error (dpcs s) 0 = Some (DLock (Erase 1)) /\ forall ls' s', (forall l, In l ls' -> l = DRun 0) -> dsteps false s ls' = Some s' -> ls' = [].
Proof.
  exists ([DCall 0 (Add 1 10)] ++ druns 0 5 ++ [DCall 0 (Find 1)] ++ druns 0 6 ++ [DCall 0 (Erase 1)]). eexists. split; [vm_compute; reflexivity|].
  split; [reflexivity|]. split; [reflexivity|]. intros [|l ls'] s' A E; [reflexivity|]. rewrite (A l) in E by (left; reflexivity). cbn in E. discriminate.
Qed.

Lemma begin_refute_reach :
  (exists s, dreachable false no_copy 2 s /\ raced s = true) /\
  (exists s, dreachable false no_copy 2 s /\ raced s = false /\ nth_error (iters s) 0 = Some (Some (Some 1)) /\ ~ key_of s 1 /\
     exists s', dstep false s (IUse 0) = Some s' /\ misused s' = true).
Proof.
  destruct begin_refute as [(ls & s & E & F & H) (ls' & s' & E' & F' & H')]. split.
  - exists s. split; [|exact H]. eapply dsteps_reach; [exact not_copied_ok|constructor|exact F|exact E].
  - exists s'. split; [|exact H']. eapply dsteps_reach; [exact not_copied_ok|constructor|exact F'|exact E'].
Qed.
Lemma deadlock_refute_reach : exists s, dreachable true find_only 2 s /\
  nth_error (dpcs s) 0 = Some (DFound (Find 1) (Some 1)) /\ nth_error (dpcs s) 1 = Some (DLock (Add 3 30)) /\ ~ alive s /\ forall l, dstep true s l = None.
Proof.
  destruct deadlock_refute as (ls & s & E & F & H). exists s. split; [|exact H]. eapply dsteps_reach; [exact only_found_ok|constructor|exact F|exact E].
Qed.
Lemma own_iterator_refute_reach : exists s, dreachable false find_only 1 s /\ nth_error (dpcs s) 0 = Some (DLock (Erase 1)) /\ dstep false s (DRun 0) = None.
Proof.
  destruct own_iterator_refute as (ls & s & E & F & P & H). exists s. split; [eapply dsteps_reach; [exact only_found_ok|constructor|exact F|exact E]|]. split; [exact P|].
  destruct (dstep false s (DRun 0)) as [s'|] eqn:D; [|reflexivity]. assert (X : [DRun 0] = []); [|discriminate]. apply (H [DRun 0] s').
  - intros l [<-|[]]. reflexivity.
  - cbn [dsteps]. rewrite D. reflexivity.
Qed.
Lemma find_ok n ls s : dsteps false (dinit n) ls = Some s -> forallb only_found ls = true -> dreachable false find_only n s.
Proof. intros E F. eapply dsteps_reach; [exact only_found_ok|constructor|exact F|exact E]. Qed.
