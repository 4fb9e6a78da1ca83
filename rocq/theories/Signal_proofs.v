(** Proofs about the signal manager. *)
From Coq Require Import Sorted ZifyBool ZifyNat ZifyN.
From Verif Require Import Signal_model Signal_spec.
Local Arguments N.ltb : simpl never.
Local Arguments N.eqb : simpl never.
Local Arguments N.modulo : simpl never.
Local Arguments N.add : simpl never.
Local Arguments W : simpl never.

Ltac sf := cbn [received notifying stop cv_locked manager callbacks cb_locked last_id hs clients history set_received set_stop set_manager set_callbacks set_handler set_client say fst snd] in *.

(** ** All cases of a step *)
Ltac crack_client E :=
  match type of E with
  | cstep ?s ?t ?p = Some _ => destruct p; cbn [cstep do_register fst] in E; unfold do_unregister, notify in E; cbv zeta in E
  end;
  repeat (match type of E with
  | (if ?c then _ else _) = _ => destruct c eqn:?
  | Some (set_client (if ?c then _ else _) _ _) = _ => destruct c eqn:?
  | Some (set_client _ _ (if ?c then _ else _)) = _ => destruct c eqn:?
  | match manager ?s with _ => _ end = _ => destruct (manager s) eqn:?
  | Some (set_client match manager ?s with _ => _ end _ _) = _ => destruct (manager s) eqn:?
  end; try discriminate E); try discriminate E.

Ltac crack_manager E :=
  match type of E with
  | mstep ?s = Some _ => unfold mstep in E; cbv zeta in E; destruct (manager s) as [| | | | | | | | | | |[|[? []] ?]|? ?|[] ?|? ?|] eqn:?
  end;
  repeat (match type of E with
  | (if ?c then _ else _) = _ => destruct c eqn:?
  | Some (if ?c then _ else _) = _ => destruct c eqn:?
  | Some (set_manager _ (if ?c then _ else _) _ _) = _ => destruct c eqn:?
  end; try discriminate E); try discriminate E.

Ltac crack E :=
  let t := fresh "t" in let c := fresh "c" in
  match type of E with sstep ?s ?l = Some _ => destruct l as [| | | | |t c|t]; cbn [sstep] in E end;
  [ idtac
  | unfold notify in E; match type of E with match notifying ?s with _ => _ end = _ => destruct (notifying s) eqn:?; [discriminate E|]; sf; destruct (manager s) eqn:? end
  | match type of E with match manager ?s with _ => _ end = _ => destruct (manager s) eqn:?; try discriminate E end
  | crack_manager E
  | match type of E with match manager ?s with _ => _ end = _ => destruct (manager s) eqn:?; try discriminate E end
  | match type of E with match ?x with _ => _ end = _ => let p := fresh "p" in destruct x as [p|] eqn:?; [|discriminate E]; destruct p; try discriminate E; destruct c end
  | match type of E with match ?x with _ => _ end = _ => let p := fresh "p" in destruct x as [p|] eqn:?; [|discriminate E]; crack_client E end ];
  injection E as <-; sf.

(** ** The locks of the manager *)
Definition holds_cv (p : mpc) : bool := match p with MLoop | MLock | MSleep | MWake | MEnded => false | _ => true end.
Definition holds_cb (p : mpc) : bool := match p with MCall _ | MWant _ _ | MIn _ _ | MNested _ _ => true | _ => false end.
Definition locks (s : sstate) : Prop := cv_locked s = holds_cv (manager s) /\ cb_locked s = holds_cb (manager s).

Lemma step_locks s l s' : locks s -> sstep s l = Some s' -> locks s'.
Proof.
  unfold locks. intros [I1 I2] E. crack E; repeat match goal with H : manager s = _ |- _ => rewrite H in * end; cbn [holds_cv holds_cb] in *; split; congruence.
Qed.

(** ** The map of callbacks *)
Definition below (a b : N * fn) : Prop := (fst a < fst b)%N.
Notation sorted := (StronglySorted below).
Fixpoint look (m : list (N * fn)) (id : N) : option fn :=
  match m with
  | [] => None
  | (i, f) :: m' => if N.eqb i id then Some f else look m' id
  end.

Lemma put_sorted m id f : sorted m -> sorted (map_put m id f) /\ forall j g, In (j, g) (map_put m id f) -> j = id \/ In (j, g) m.
Proof.
  induction m as [|[i g] m IH]; intro S; cbn [map_put].
  - split; [repeat constructor|]. intros j h [E|[]]. injection E as <- <-. left. reflexivity.
  - inversion S as [|? ? S1 S2]; subst. rewrite Forall_forall in S2. destruct (IH S1) as [IH1 IH2]. destruct (N.eqb_spec id i) as [->|D]; [|destruct (N.ltb_spec id i) as [L|L]].
    + split.
      * constructor; [exact S1|]. rewrite Forall_forall. exact S2.
      * intros j h [E|H]; [injection E as <- <-; left; reflexivity|right; right; exact H].
    + split.
      * constructor; [exact S|]. rewrite Forall_forall. intros [j h] [E|H]; [injection E as <- <-; exact L|]. specialize (S2 _ H). unfold below in *. cbn [fst] in *. lia.
      * intros j h [E|H]; [injection E as <- <-; left; reflexivity|right; exact H].
    + split.
      * constructor; [exact IH1|]. rewrite Forall_forall. intros [j h] H. destruct (IH2 _ _ H) as [->|H']; [unfold below; cbn [fst]; lia|exact (S2 _ H')].
      * intros j h [E|H]; [right; left; exact E|]. destruct (IH2 _ _ H) as [->|H']; [left; reflexivity|right; right; exact H'].
Qed.

Lemma put_look m id f j : look (map_put m id f) j = if N.eqb id j then Some f else look m j.
Proof.
  induction m as [|[i g] m IH]; cbn [map_put look]; [reflexivity|].
  destruct (N.eqb_spec id i) as [->|D]; [|destruct (N.ltb_spec id i) as [L|L]]; cbn [look].
  - destruct (N.eqb i j); reflexivity.
  - reflexivity.
  - rewrite IH. destruct (N.eqb_spec i j) as [->|]; [|reflexivity]. destruct (N.eqb_spec id j) as [->|]; [congruence|reflexivity].
Qed.

Lemma look_in m id f : sorted m -> (In (id, f) m <-> look m id = Some f).
Proof.
  induction m as [|[i g] m IH]; intro S; cbn [look].
  - split; [intros []|discriminate].
  - inversion S as [|? ? S1 S2]; subst. rewrite Forall_forall in S2. destruct (N.eqb_spec i id) as [->|D].
    + split.
      * intros [E|H]; [injection E as ->; reflexivity|]. specialize (S2 _ H). unfold below in S2. cbn in S2. lia.
      * intro E. injection E as ->. left. reflexivity.
    + rewrite <- (IH S1). split; [intros [E|H]; [congruence|exact H]|intro H; right; exact H].
Qed.

Lemma has_look m id : map_has m id = true <-> look m id <> None.
Proof.
  induction m as [|[i g] m IH]; cbn [map_has look]; [split; [discriminate|congruence]|].
  rewrite (N.eqb_sym id i). destruct (N.eqb i id); cbn [orb]; [split; [discriminate|reflexivity]|exact IH].
Qed.

Lemma erase_sorted m id : sorted m -> sorted (map_erase m id) /\ forall x, In x (map_erase m id) -> In x m.
Proof.
  induction m as [|[i g] m IH]; intro S; cbn [map_erase]; [split; [exact S|auto]|].
  inversion S as [|? ? S1 S2]; subst. rewrite Forall_forall in S2. destruct (IH S1) as [IH1 IH2]. destruct (N.eqb id i).
  - split; [exact S1|]. intros x H. right. exact H.
  - split; [constructor; [exact IH1|]; rewrite Forall_forall; intros x H; exact (S2 _ (IH2 _ H))|]. intros x [H|H]; [left; exact H|right; exact (IH2 _ H)].
Qed.

Lemma erase_look m id j : sorted m -> look (map_erase m id) j = if N.eqb id j then None else look m j.
Proof.
  induction m as [|[i g] m IH]; intro S; cbn [map_erase look]; [destruct (N.eqb id j); reflexivity|].
  inversion S as [|? ? S1 S2]; subst. rewrite Forall_forall in S2. destruct (N.eqb_spec id i) as [->|D]; cbn [look].
  - destruct (N.eqb_spec i j) as [->|D]; [|reflexivity]. destruct (look m j) as [f|] eqn:L; [|reflexivity].
    apply (look_in _ _ _ S1) in L. specialize (S2 _ L). unfold below in S2. cbn in S2. lia.
  - rewrite (IH S1). destruct (N.eqb_spec i j) as [->|]; [|reflexivity]. destruct (N.eqb_spec id j) as [->|]; [congruence|reflexivity].
Qed.

Definition tables (s : sstate) : Prop := sorted (callbacks s) /\ forall id, look (callbacks s) id = registered (history s) id.

Lemma step_tables s l s' : tables s -> sstep s l = Some s' -> tables s'.
Proof.
  intros [S T] E. unfold tables. crack E; try (split; [exact S|exact T]).
  all: try (split; [apply put_sorted; exact S|intro id0; cbn [registered]; rewrite put_look, T; reflexivity]).
  all: split; [apply erase_sorted; exact S|intro id0; cbn [registered]; rewrite erase_look, T by exact S; reflexivity].
Qed.

(** ** What happens during a dispatch *)
Definition neutral (e : sevent) : Prop := match e with VDispatch | VFinished | VRegistered _ _ _ | VUnregistered _ _ => False | _ => True end.
Definition rest_of (p : mpc) : list (N * fn) := match p with MCall r | MWant _ r | MIn _ r | MNested _ r => r | _ => [] end.
Definition calling (s : sstate) : Prop := holds_cb (manager s) = true ->
  exists mid older, history s = mid ++ VDispatch :: older /\ (forall e, In e mid -> neutral e) /\ called mid ++ rest_of (manager s) = callbacks s.

Lemma called_cons e ev : called (e :: ev) = called ev ++ match e with VCall id f => [(id, f)] | _ => [] end.
Proof. unfold called. cbn [rev]. rewrite flat_map_app. cbn [flat_map]. rewrite app_nil_r. reflexivity. Qed.

Lemma step_calling s l s' : locks s -> calling s -> sstep s l = Some s' -> calling s'.
Proof.
  intros [L1 L2] C E. unfold calling in *. 
  assert (S : forall p e, rest_of p = rest_of (manager s) -> holds_cb (manager s) = true -> neutral e -> match e with VCall _ _ => False | _ => True end ->
    exists mid older, e :: history s = mid ++ VDispatch :: older /\ (forall e, In e mid -> neutral e) /\ called mid ++ rest_of p = callbacks s).
  { intros p e Hp Hh Hn Hc. destruct (C Hh) as (mid & older & H1 & H2 & H3). exists (e :: mid), older. rewrite H1. split; [reflexivity|]. split.
    - intros e' [<-|H]; [exact Hn|exact (H2 _ H)].
    - rewrite called_cons, Hp. destruct e; try contradiction; rewrite app_nil_r; exact H3. }
  crack E; try exact C; intro Hh; repeat match goal with H : manager s = _ |- _ => rewrite H in * end; cbn [holds_cb rest_of] in *; try discriminate Hh; try congruence;
    try (apply S; [reflexivity|exact Hh|exact I|exact I]);
    try (destruct (C eq_refl) as (mid & older & H1 & H2 & H3); exists mid, older; split; [exact H1|split; [exact H2|exact H3]]).
  - exists [], (history s). split; [reflexivity|]. split; [intros e []|reflexivity].
  - destruct (C eq_refl) as (mid & older & H1 & H2 & H3). exists (VCall n (Raw k) :: mid), older. split; [rewrite H1; reflexivity|]. split.
    + intros e [<-|H]; [exact I|exact (H2 _ H)].
    + rewrite called_cons, <- app_assoc. exact H3.
  - destruct (C eq_refl) as (mid & older & H1 & H2 & H3). exists (VCall n (Of h) :: mid), older. split; [rewrite H1; reflexivity|]. split.
    + intros e [<-|H]; [exact I|exact (H2 _ H)].
    + rewrite called_cons, <- app_assoc. exact H3.
Qed.

Record SInv (s : sstate) : Prop := { sv_locks : locks s; sv_tables : tables s; sv_calling : calling s }.
Lemma init_sinv n : SInv (sinit n).
Proof. split; [split; reflexivity|split; [constructor|reflexivity]|intro H; discriminate H]. Qed.
Lemma step_sinv s l s' : SInv s -> sstep s l = Some s' -> SInv s'.
Proof. intros [L T C] E. split; [exact (step_locks _ _ _ L E)|exact (step_tables _ _ _ T E)|exact (step_calling _ _ _ L C E)]. Qed.
Lemma reach_sinv allowed n s : sreachable allowed n s -> SInv s.
Proof. intro R. induction R as [|s l s' R IH A E]; [apply init_sinv|exact (step_sinv _ _ _ IH E)]. Qed.

Lemma registered_neutral mid ev id : (forall e, In e mid -> neutral e) -> registered (mid ++ ev) id = registered ev id.
Proof.
  induction mid as [|e mid IH]; intro H; [reflexivity|]. cbn [app registered].
  pose proof (H e (or_introl eq_refl)) as He. specialize (IH (fun e' H' => H e' (or_intror H'))). destruct e; try exact IH; contradiction.
Qed.

(** the history grows *)
Lemma step_grows s l s' : sstep s l = Some s' -> history s' = history s \/ exists e, history s' = e :: history s.
Proof. intro E. crack E; try (left; reflexivity); right; eexists; reflexivity. Qed.

Lemma step_finished s l s' : sstep s l = Some s' -> history s' = VFinished :: history s -> manager s = MCall [].
Proof.
  assert (L : forall (e : sevent) es, es <> e :: es) by (intros e es H; apply (f_equal (@length _)) in H; cbn in H; lia).
  intros E H. crack E; try (destruct (L _ _ H)); try discriminate H; reflexivity || assumption.
Qed.
Lemma step_call s l s' id f : sstep s l = Some s' -> history s' = VCall id f :: history s -> exists r, manager s = MCall ((id, f) :: r).
Proof.
  assert (L : forall (e : sevent) es, es <> e :: es) by (intros e es H; apply (f_equal (@length _)) in H; cbn in H; lia).
  intros E H. crack E; try (destruct (L _ _ H)); try discriminate H; injection H as <- <-; eexists; first [reflexivity|eassumption].
Qed.

(** a moment is the end of some step *)
Lemma moment_step allowed n s e older : sreachable allowed n s -> moment s e older ->
  exists s1 l s2, sreachable allowed n s1 /\ allowed l /\ sstep s1 l = Some s2 /\ history s1 = older /\ history s2 = e :: older.
Proof.
  intros R. induction R as [|s l s' R IH A E]; intros [newer H].
  - destruct newer; discriminate H.
  - destruct (step_grows _ _ _ E) as [G|[e' G]]; rewrite G in H.
    + apply IH. exists newer. exact H.
    + destruct newer as [|e0 newer]; cbn [app] in H; injection H as -> H.
      * exists s, l, s'. rewrite G. subst. repeat split; assumption.
      * apply IH. exists newer. exact H.
Qed.

Lemma dispatch_lemma : forall n s older, sreachable anything n s -> moment s VFinished older ->
  exists mid before, older = mid ++ VDispatch :: before /\ one_dispatch mid /\ calls_all (called mid) before.
Proof.
  intros n s older R M. destruct (moment_step _ _ _ _ _ R M) as (s1 & l & s2 & R1 & _ & E & <- & H).
  destruct (reach_sinv _ _ _ R1) as [L [S T] C]. pose proof (step_finished _ _ _ E H) as P. unfold calling in C. rewrite P in C.
  destruct (C eq_refl) as (mid & before & H1 & H2 & H3). cbn [rest_of] in H3. rewrite app_nil_r in H3. exists mid, before. split; [exact H1|]. split.
  - intros e He. specialize (H2 _ He). split; intros ->; exact H2.
  - rewrite H3. split; [exact S|]. intros id f. rewrite (look_in _ _ _ S), T, H1, registered_neutral by exact H2. reflexivity.
Qed.

(** ** Counting *)
Definition taken (e : sevent) : bool := match e with VTake => true | _ => false end.
Lemma number_cons p e ev : number p (e :: ev) = ((if p e then 1 else 0) + number p ev)%N.
Proof. unfold number. cbn [filter]. destruct (p e); cbn [length]; lia. Qed.

Definition balance (s : sstate) : Prop :=
  (exists k, number arrival (history s) = number taken (history s) + received s + k * W)%N /\ (received s < W)%N /\
  number taken (history s) = (number dispatch (history s) + match manager s with MDispatch => 1 | _ => 0 end)%N /\
  (manager s = MTake -> number taken (history s) < number arrival (history s))%N.

Lemma W_pos : (0 < W)%N. Proof. reflexivity. Qed.

Lemma step_balance s l s' : balance s -> sstep s l = Some s' -> balance s'.
Proof.
  intros ([k B1] & B2 & B3 & B4) E. unfold balance. pose proof W_pos as WP.
  crack E; repeat match goal with H : manager s = _ |- _ => rewrite H in * end; rewrite ?number_cons; cbn [arrival taken dispatch N.add];
    try (split; [exists k; lia|]; split; [exact B2|]; split; [lia|try discriminate; try lia; assumption]).
  all: try (split; [exists k; lia|]; split; [exact B2|]; split; [lia|]; intros Hm; discriminate Hm || lia).
  - destruct (N.eq_dec (received s + 1) W) as [Ew|Ew].
    + rewrite Ew, N.mod_same by lia. split; [exists (k + 1)%N; lia|]. split; [lia|]. split; [lia|]. intro Hm. specialize (B4 Hm). lia.
    + rewrite N.mod_small by lia. split; [exists k; lia|]. split; [lia|]. split; [lia|]. intro Hm. specialize (B4 Hm). lia.
  - specialize (B4 eq_refl). destruct (N.eq_dec (received s) 0) as [Z|Z].
    + rewrite Z in *. rewrite N.mod_small by lia. split; [|split; [lia|]; split; [lia|discriminate]]. exists (k - 1)%N. assert (k <> 0)%N by (intros ->; lia). nia.
    + replace (received s + W - 1)%N with (received s - 1 + 1 * W)%N by lia. rewrite N.mod_add, N.mod_small by lia.
      split; [exists k; lia|]. split; [lia|]. split; [lia|discriminate].
Qed.

Lemma reach_balance allowed n s : sreachable allowed n s -> balance s.
Proof.
  intro R. induction R as [|s l s' R IH A E]; [|exact (step_balance _ _ _ IH E)].
  split; [exists 0%N; reflexivity|]. split; [reflexivity|]. split; [reflexivity|discriminate].
Qed.

Lemma counted_lemma : forall n s, sreachable anything n s ->
  exists k, number arrival (history s) = (number dispatch (history s) + pending s + k * W)%N.
Proof.
  intros n s R. destruct (reach_balance _ _ _ R) as ([k B1] & _ & B3 & _). exists k. unfold pending. lia.
Qed.

(** ** Lost notifications *)
Definition no_lost (s : sstate) : Prop := (match manager s with MTest2 | MBlock | MSleep => True | _ => False end) ->
  ~ In VLost (history s) -> (received s <= N.of_nat (notifying s))%N.

Lemma step_no_lost s l s' : balance s -> no_lost s -> sstep s l = Some s' -> no_lost s'.
Proof.
  intros (_ & B & _) I E. unfold no_lost in *. 
  crack E; repeat match goal with H : manager s = _ |- _ => rewrite H in * end; try exact I;
    try (intros []; fail);
    try (intros _ Hn; specialize (I Logic.I (fun H => Hn (or_intror H))); lia);
    try (intros _ Hn; specialize (I Logic.I Hn); lia);
    try (intros Hm Hn; apply (I Hm); intro H; apply Hn; try right; exact H).
  - intros Hm Hn. specialize (I Hm (fun H => Hn (or_intror H))). destruct (N.eq_dec (received s + 1) W) as [Ew|Ew]; [rewrite Ew, N.mod_same by discriminate; lia|rewrite N.mod_small by lia; lia].
  - intros _ Hn. destruct Hn. left. reflexivity.
  - intros _ Hn. destruct Hn. left. reflexivity.
  - intros _ _. lia.
Qed.

Lemma not_lost_lemma : forall n s, sreachable anything n s -> manager s = MSleep -> notifying s = 0 -> ~ In VLost (history s) ->
  exists k, number arrival (history s) = (number dispatch (history s) + k * W)%N.
Proof.
  intros n s R P K L. assert (I : no_lost s).
  { clear P K L. induction R as [|s l s' R IH A E]; [intros []|]. exact (step_no_lost _ _ _ (reach_balance _ _ _ R) IH E). }
  unfold no_lost in I. rewrite P in I. specialize (I Logic.I L). rewrite K in I. destruct (counted_lemma _ _ R) as [k H]. exists k. unfold pending in H. rewrite P in H. lia.
Qed.

Lemma ssteps_reach (allowed : slabel -> Prop) n ls : forall s s', sreachable allowed n s -> Forall allowed ls -> ssteps s ls = Some s' -> sreachable allowed n s'.
Proof.
  induction ls as [|l ls IH]; intros s s' R F E; cbn [ssteps] in E; [injection E as <-; exact R|].
  destruct (sstep s l) as [s0|] eqn:E0; [|discriminate]. inversion F as [|? ? F1 F2]; subst. apply (IH s0); [|exact F2|exact E]. econstructor; [exact R|exact F1|exact E0].
Qed.

(** ** The destructor *)
Definition ending (s : sstate) : Prop :=
  (forall t p, nth_error (clients s) t = Some p -> match p with DNotify | DJoin | DDone => stop s = true | _ => True end) /\
  (stop s = true -> manager s <> MBlock) /\
  (forall t p, nth_error (clients s) t = Some p -> match p with DJoin => manager s <> MSleep | DDone => manager s = MEnded | _ => True end).

Lemma step_ending s l s' : locks s -> ending s -> sstep s l = Some s' -> ending s'.
Proof.
  intros [L _] (E1 & E2 & E3) E. unfold ending.
  assert (E0 : forall u p, nth_error (clients s) u = Some p -> match p with DNotify => stop s = true | DJoin => stop s = true /\ manager s <> MSleep | DDone => stop s = true /\ manager s = MEnded | _ => True end).
  { intros u p Hu. pose proof (E1 _ _ Hu). pose proof (E3 _ _ Hu). destruct p; auto. }
  clear E1 E3.
  crack E; repeat match goal with H : manager s = _ |- _ => rewrite H in * end; cbn [holds_cv] in *;
    (split; [intros u p Hu; try (apply nth_upd in Hu as [[-> ->]|[_ Hu]]); [..|pose proof (E0 _ _ Hu) as Q; destruct p; intuition congruence]; try exact I; try reflexivity
    |split; [try exact E2; intros; try discriminate; try congruence|intros u p Hu; try (apply nth_upd in Hu as [[-> ->]|[_ Hu]]); [..|pose proof (E0 _ _ Hu) as Q; destruct p; try exact I; intuition congruence]; try exact I]]).
  all: try discriminate; try (match goal with H : nth_error (clients ?s0) ?t = Some ?p |- _ => pose proof (E0 _ _ H) as Q; cbv beta iota in Q; intuition congruence end).
  intros Hm. rewrite Hm in L. discriminate L.
Qed.

Lemma reach_ending allowed n s : sreachable allowed n s -> ending s.
Proof.
  intro R. induction R as [|s l s' R IH A E]; [|exact (step_ending _ _ _ (sv_locks _ (reach_sinv _ _ _ R)) IH E)].
  split; [|split; [discriminate|]]; intros t p Hp; apply nth_all in Hp as ->; exact I.
Qed.

(** the manager sleeps although a signal is pending, until another one arrives *)
Definition forgotten (s : sstate) : Prop :=
  number dispatch (history s) = 0%N /\ notifying s = 0 /\ received s <> 0%N /\
  (manager s = MSleep \/ (stop s = true /\ match manager s with MWake | MTest | MStop | MEnded => True | _ => False end)).
Lemma step_forgotten s l s' : ending s -> forgotten s -> sstep s l = Some s' -> l <> Arrive -> l <> Spurious -> forgotten s'.
Proof.
  intros (G & _) (F1 & F2 & F3 & F4) E D1 D2. unfold forgotten.
  crack E; try congruence; repeat match goal with H : manager s = _ |- _ => rewrite H in * end; try (exfalso; destruct F4 as [F4|[F4 []]]; discriminate F4); rewrite ?number_cons; cbn [dispatch N.add];
    try (destruct F4 as [F4|[F4 F5]]; try discriminate F4; try contradiction F5; split; [exact F1|]; split; [exact F2|]; split; [exact F3|];
      first [left; assumption|left; reflexivity|right; split; [assumption|exact I]|right; split; [reflexivity|exact I]]).
  all: try (split; [exact F1|]; split; [exact F2|]; split; [exact F3|]; destruct F4 as [F4|[F4 F5]]; first [left; assumption|right; split; assumption|right; split; [reflexivity|assumption]]).
  - lia.
  - split; [exact F1|]. split; [exact F2|]. split; [exact F3|]. right. split; [exact (G _ _ Heqo)|exact I].
Qed.

Lemma steps_forgotten n ls : forall s s', sreachable anything n s -> forgotten s -> (forall l, In l ls -> l <> Arrive /\ l <> Spurious) -> ssteps s ls = Some s' -> number dispatch (history s') = 0%N.
Proof.
  induction ls as [|l ls IH]; intros s s' R F D E; cbn [ssteps] in E; [injection E as <-; exact (proj1 F)|].
  destruct (sstep s l) as [s0|] eqn:E0; [|discriminate]. destruct (D l (or_introl eq_refl)) as [D1 D2]. apply (IH s0); [|exact (step_forgotten _ _ _ (reach_ending _ _ _ R) F E0 D1 D2)| |exact E].
  - econstructor; [exact R|exact I|exact E0].
  - intros l' H. apply D. right. exact H.
Qed.

Lemma lost_refute : exists ls s, ssteps (sinit 1) ls = Some s /\ number arrival (history s) = 1%N /\ notifying s = 0 /\ registered (history s) 1 = Some (Raw 7) /\
  forall ls' s', (forall l, In l ls' -> l <> Arrive /\ l <> Spurious) -> ssteps s ls' = Some s' -> number dispatch (history s') = 0%N.
Proof.
  exists [Call 0 (Register 7); Run 0; Manager; Manager; Manager; Manager; Arrive; Notify; Manager].
  destruct (ssteps (sinit 1) [Call 0 (Register 7); Run 0; Manager; Manager; Manager; Manager; Arrive; Notify; Manager]) as [s|] eqn:E; [|vm_compute in E; discriminate].
  assert (R : sreachable anything 1 s) by (eapply ssteps_reach; [constructor| |exact E]; repeat constructor).
  exists s. split; [reflexivity|]. vm_compute in E. injection E as <-. split; [reflexivity|]. split; [reflexivity|]. split; [reflexivity|].
  intros ls' s' D E'. apply (steps_forgotten 1 ls' _ s' R); [|exact D|exact E']. split; [reflexivity|]. split; [reflexivity|]. split; [discriminate|left; reflexivity].
Qed.

(** ** Identifiers *)
Definition ids (s : sstate) : Prop := (number registration (history s) < W)%N ->
  last_id s = number registration (history s) /\ forall id f, In (id, f) (callbacks s) -> (1 <= id <= last_id s)%N.

Lemma step_ids s l s' : tables s -> ids s -> sstep s l = Some s' -> ids s'.
Proof.
  intros [S _] I E. unfold ids in *. crack E; rewrite ?number_cons; cbn [registration]; try exact I.
  all: intro B; destruct (I ltac:(lia)) as [I1 I2]; split; try lia.
  all: try (rewrite N.mod_small by lia; lia).
  all: intros id0 f0 H; first [destruct (proj2 (put_sorted _ _ _ S) _ _ H) as [->|H'];
    [rewrite N.mod_small by lia; lia|specialize (I2 _ _ H'); rewrite N.mod_small by lia; lia]|apply (proj2 (erase_sorted _ _ S)) in H; exact (I2 _ _ H)|exact (I2 _ _ H)].
Qed.

Lemma reach_ids allowed n s : sreachable allowed n s -> ids s.
Proof.
  intro R. induction R as [|s l s' R IH A E]; [|exact (step_ids _ _ _ (sv_tables _ (reach_sinv _ _ _ R)) IH E)].
  intros _. split; [reflexivity|intros id f []].
Qed.

Lemma registered_step s l s' t id f : sstep s l = Some s' -> history s' = VRegistered t id f :: history s -> id = ((last_id s + 1) mod W)%N.
Proof.
  assert (L : forall (e : sevent) es, es <> e :: es) by (intros e es H; apply (f_equal (@length _)) in H; cbn in H; lia).
  intros E H. crack E; try (destruct (L _ _ H)); try discriminate H; injection H as _ <- _; reflexivity.
Qed.

Lemma new_id_lemma : forall n s t id f older, sreachable anything n s -> moment s (VRegistered t id f) older -> (number registration older + 1 < W)%N ->
  registered older id = None.
Proof.
  intros n s t id f older R M B. destruct (moment_step _ _ _ _ _ R M) as (s1 & l & s2 & R1 & _ & E & <- & H).
  pose proof (registered_step _ _ _ _ _ _ E H) as ->. destruct (reach_ids _ _ _ R1 ltac:(lia)) as [I1 I2]. destruct (reach_sinv _ _ _ R1) as [L [S T] C].
  rewrite <- T. destruct (look _ _) as [g|] eqn:G; [|reflexivity]. apply (look_in _ _ _ S) in G. specialize (I2 _ _ G). rewrite N.mod_small in I2 by lia. lia.
Qed.

Lemma call_lemma : forall n s id f older, sreachable anything n s -> moment s (VCall id f) older -> registered older id = Some f.
Proof.
  intros n s id f older R M. destruct (moment_step _ _ _ _ _ R M) as (s1 & l & s2 & R1 & _ & E & <- & H).
  destruct (reach_sinv _ _ _ R1) as [L [S T] C]. destruct (step_call _ _ _ _ _ E H) as [r P]. unfold calling in C. rewrite P in C.
  destruct (C eq_refl) as (mid & before & H1 & H2 & H3). cbn [rest_of] in H3. rewrite <- T. apply look_in; [exact S|]. rewrite <- H3. apply in_or_app. right. left. reflexivity.
Qed.

Lemma unregistered_lemma : forall n s l s' t id, sreachable anything n s -> sstep s l = Some s' -> history s' = VUnregistered t id :: history s ->
  in_call (manager s') = false /\ registered (history s') id = None.
Proof.
  assert (L : forall (e : sevent) es, es <> e :: es) by (intros e es H; apply (f_equal (@length _)) in H; cbn in H; lia).
  intros n s l s' t id R E H. destruct (reach_sinv _ _ _ R) as [[_ L2] _ _]. split; [|rewrite H; cbn [registered]; rewrite N.eqb_refl; reflexivity].
  crack E; try (destruct (L _ _ H)); try discriminate H; destruct (manager s); try reflexivity; cbn [holds_cb] in L2; congruence.
Qed.

Lemma destroyed_lemma : forall n s t older, sreachable anything n s -> moment s (VDestroyed t) older -> manager s = MEnded.
Proof.
  intros n s t older R. induction R as [|s l s' R IH A E]; intros [newer H]; [destruct newer; discriminate H|].
  assert (L : forall (e : sevent) es, es <> e :: es) by (intros e es H'; apply (f_equal (@length _)) in H'; cbn in H'; lia).
  destruct (step_grows _ _ _ E) as [G|[e G]]; rewrite G in H.
  - assert (M : manager s = MEnded) by (apply IH; exists newer; exact H). crack E; congruence.
  - destruct newer as [|e0 newer]; cbn [app] in H; injection H as -> H.
    + crack E; try (destruct (L _ _ G)); try discriminate G; congruence.
    + assert (M : manager s = MEnded) by (apply IH; exists newer; exact H). crack E; congruence.
Qed.

(** ** The identifiers are used again after 2^32 registrations *)
Lemma many_registrations k : (N.of_nat k < W)%N -> exists s, sreachable anything 1 s /\ cb_locked s = false /\ clients s = [CIdle] /\
  last_id s = ((1 + N.of_nat k) mod W)%N /\ registered (history s) 1 = Some (Raw 7).
Proof.
  induction k as [|k IH]; intro B.
  - destruct (ssteps (sinit 1) [Call 0 (Register 7); Run 0]) as [s|] eqn:E; [|vm_compute in E; discriminate].
    exists s. split; [eapply ssteps_reach; [constructor| |exact E]; repeat constructor|]. vm_compute in E. injection E as <-. repeat split.
  - destruct IH as (s & R & H1 & H2 & H3 & H4); [lia|].
    destruct (sstep s (Call 0 (Register 8))) as [s1|] eqn:E1; [|cbn [sstep] in E1; rewrite H2 in E1; discriminate].
    pose proof (sr_step anything 1 _ _ _ R Logic.I E1) as R1. cbn [sstep] in E1. rewrite H2 in E1. cbn [nth_error] in E1. injection E1 as E1.
    assert (G1 : cb_locked s1 = false) by (subst s1; exact H1). assert (G2 : clients s1 = [CRegister (Raw 8)]) by (subst s1; sf; rewrite H2; reflexivity).
    assert (G3 : last_id s1 = last_id s) by (subst s1; reflexivity). assert (G4 : history s1 = history s) by (subst s1; reflexivity). clear E1.
    destruct (sstep s1 (Run 0)) as [s2|] eqn:E2; [|cbn [sstep] in E2; rewrite G2 in E2; cbn [nth_error cstep] in E2; rewrite G1 in E2; discriminate].
    pose proof (sr_step anything 1 _ _ _ R1 Logic.I E2) as R2. cbn [sstep] in E2. rewrite G2 in E2. cbn [nth_error cstep] in E2. rewrite G1 in E2. cbn [do_register fst] in E2. injection E2 as E2.
    exists s2. split; [exact R2|]. subst s2. sf. split; [exact G1|]. split; [rewrite G2; reflexivity|]. rewrite G3, H3, G4. pose proof W_pos as WP.
    assert (M1 : ((1 + N.of_nat k) mod W = 1 + N.of_nat k)%N) by (apply N.mod_small; lia).
    split; [rewrite M1; f_equal; lia|]. cbn [registered]. rewrite H4. destruct (N.eqb_spec (((1 + N.of_nat k) mod W + 1) mod W) 1) as [C|]; [|reflexivity].
    exfalso. rewrite M1 in C. destruct (N.eq_dec (1 + N.of_nat k + 1) W) as [D|D]; [rewrite D, N.mod_same in C by lia; discriminate|rewrite N.mod_small in C by lia; lia].
Qed.

Lemma ids_refute : exists s t older, sreachable anything 1 s /\ moment s (VRegistered t 1 (Raw 8)) older /\ registered older 1 = Some (Raw 7).
Proof.
  destruct (many_registrations (N.to_nat (W - 1))) as (s & R & H1 & H2 & H3 & H4); [pose proof W_pos; lia|].
  assert (G0 : last_id s = 0%N). { rewrite H3, N2Nat.id. reflexivity. } clear H3.
  destruct (sstep s (Call 0 (Register 8))) as [s1|] eqn:E1; [|cbn [sstep] in E1; rewrite H2 in E1; discriminate].
  pose proof (sr_step anything 1 _ _ _ R Logic.I E1) as R1. cbn [sstep] in E1. rewrite H2 in E1. cbn [nth_error] in E1. injection E1 as E1.
  assert (G1 : cb_locked s1 = false) by (subst s1; exact H1). assert (G2 : clients s1 = [CRegister (Raw 8)]) by (subst s1; sf; rewrite H2; reflexivity).
  assert (G3 : last_id s1 = 0%N) by (subst s1; exact G0). assert (G4 : history s1 = history s) by (subst s1; reflexivity). clear E1.
  destruct (sstep s1 (Run 0)) as [s2|] eqn:E2; [|cbn [sstep] in E2; rewrite G2 in E2; cbn [nth_error cstep] in E2; rewrite G1 in E2; discriminate].
  pose proof (sr_step anything 1 _ _ _ R1 Logic.I E2) as R2. cbn [sstep] in E2. rewrite G2 in E2. cbn [nth_error cstep] in E2. rewrite G1 in E2. cbn [do_register fst] in E2. injection E2 as E2.
  exists s2, 0, (history s). split; [exact R2|]. split; [|exact H4]. exists []. subst s2. sf. rewrite G3, G4. reflexivity.
Qed.

(** ** The mutexes of the signal handlers *)
Definition crit (h : nat) (p : cpc) : bool :=
  match p with SSet h' | SFlag h' | SRegister h' | SUnlock h' | UClear h' | UFlag h' | UUnregister h' | UUnlock h' => h' =? h | _ => false end.
Definition b2n (b : bool) : nat := if b then 1 else 0.
Definition running (h : nat) (p : cpc) : bool := match p with EIn h' => h' =? h | _ => false end.
Definition mrunning (h : nat) (p : mpc) : bool := match p with MIn (Of h') _ | MNested (Of h') _ => h' =? h | _ => false end.

Definition mutexes (s : sstate) : Prop := forall h,
  number_of (fun p => b2n (crit h p)) (clients s) = b2n (emutex (hs s h)) /\
  number_of (fun p => b2n (running h p)) (clients s) + b2n (mrunning h (manager s)) = b2n (imutex (hs s h)).

Lemma step_mutexes s l s' : mutexes s -> sstep s l = Some s' -> mutexes s'.
Proof.
  intros I E.
  crack E; intro h0; specialize (I h0); destruct I as [I1 I2]; sf;
    repeat match goal with H : manager s = _ |- _ => rewrite H in * end;
    try match goal with H : nth_error (clients s) ?t = Some ?p |- context [upd (clients s) ?t ?p'] =>
      pose proof (number_upd (fun x => b2n (crit h0 x)) _ _ p' _ H) as U1; pose proof (number_upd (fun x => b2n (running h0 x)) _ _ p' _ H) as U2 end;
    cbn [crit running mrunning b2n enter] in *; sf; cbn [crit running mrunning b2n] in *;
    try match goal with |- context [if ?a =? ?h then _ else _] => destruct (Nat.eqb_spec a h) as [->|?D] end;
    try match goal with H : ?a <> ?h |- _ => assert (h =? a = false) as D0 by (apply Nat.eqb_neq; congruence); rewrite ?D0 in * end;
    rewrite ?Nat.eqb_refl in *; cbn [emutex imutex with_e with_i with_set with_manager with_id b2n] in *;
    repeat match goal with H : emutex _ = _ |- _ => rewrite H in * | H : imutex _ = _ |- _ => rewrite H in * end; cbn [b2n] in *;
    repeat match goal with |- context [emutex ?x] => destruct (emutex x) | |- context [imutex ?x] => destruct (imutex x)
      | H : context [b2n (emutex ?x)] |- _ => destruct (emutex x) | H : context [b2n (imutex ?x)] |- _ => destruct (imutex x) end; cbn [b2n] in *; split; lia.
Qed.

Lemma reach_mutexes allowed n s : sreachable allowed n s -> mutexes s.
Proof.
  intro R. induction R as [|s l s' R IH A E]; [|exact (step_mutexes _ _ _ IH E)].
  intro h. split; [|cbn [mrunning manager sinit]]; cbn [sinit clients hs new_handler emutex imutex b2n]; rewrite number_repeat; cbn; lia.
Qed.

(** ** Signal handlers *)
Definition reg (m : list (N * fn)) (h : nat) (x : sig_handler) (b : bool) : Prop := forall id, look m id = Some (Of h) <-> b = true /\ id = callback_id x.
Definition resting (h : nat) (x : sig_handler) (m : list (N * fn)) (ev : list sevent) : Prop :=
  is_set x = last_set h ev /\ in_manager x = is_set x /\ reg m h x (in_manager x).
Definition phase (h : nat) (p : cpc) (x : sig_handler) (m : list (N * fn)) (ev : list sevent) : Prop :=
  match p with
  | SSet _ | UClear _ => resting h x m ev
  | SFlag _ => is_set x = true /\ in_manager x = false /\ reg m h x false
  | SRegister _ => is_set x = true /\ in_manager x = true /\ reg m h x false
  | SUnlock _ => is_set x = true /\ in_manager x = true /\ reg m h x true
  | UFlag _ => is_set x = false /\ in_manager x = true /\ reg m h x true
  | UUnregister _ => is_set x = false /\ in_manager x = false /\ reg m h x true
  | UUnlock _ => is_set x = false /\ in_manager x = false /\ reg m h x false
  | _ => True
  end.
Definition kept (s : sstate) : Prop := forall h,
  (emutex (hs s h) = false -> resting h (hs s h) (callbacks s) (history s)) /\
  (forall t p, nth_error (clients s) t = Some p -> crit h p = true -> phase h p (hs s h) (callbacks s) (history s)).
Definition own_raw (s : sstate) : Prop := forall t p, nth_error (clients s) t = Some p -> match p with CRegister (Of _) | CUnregister _ => False | _ => True end.

Definition same (h : nat) (x y : sig_handler) (m m' : list (N * fn)) (ev ev' : list sevent) : Prop :=
  is_set y = is_set x /\ in_manager y = in_manager x /\ callback_id y = callback_id x /\ (forall id, look m' id = Some (Of h) <-> look m id = Some (Of h)) /\ last_set h ev' = last_set h ev.
Lemma same_refl h x m ev : same h x x m m ev ev. Proof. repeat split; auto. Qed.
Lemma same_resting h x y m m' ev ev' : same h x y m m' ev ev' -> resting h x m ev -> resting h y m' ev'.
Proof. intros (A & B & C & D & F) (R1 & R2 & R3). unfold resting, reg in *. rewrite A, B, C, F. split; [exact R1|]. split; [exact R2|]. intro id. rewrite D. apply R3. Qed.
Lemma same_phase h p x y m m' ev ev' : same h x y m m' ev ev' -> phase h p x m ev -> phase h p y m' ev'.
Proof.
  intros S. pose proof (same_resting _ _ _ _ _ _ _ S) as SR. destruct S as (A & B & C & D & F).
  destruct p; cbn [phase]; try exact SR; try trivial; rewrite A, B; unfold reg; rewrite C; intros (R1 & R2 & R3); (split; [exact R1|]; split; [exact R2|]; intro id; rewrite D; apply R3).
Qed.

(** nothing of the signal handlers changes *)
Lemma kept_same s s' : kept s -> (forall h, emutex (hs s' h) = emutex (hs s h) /\ same h (hs s h) (hs s' h) (callbacks s) (callbacks s') (history s) (history s')) ->
  (forall t p h, nth_error (clients s') t = Some p -> crit h p = true -> nth_error (clients s) t = Some p) -> kept s'.
Proof.
  intros K S C h. destruct (K h) as [K1 K2]. destruct (S h) as [S1 S2]. split.
  - intro H. rewrite S1 in H. exact (same_resting _ _ _ _ _ _ _ S2 (K1 H)).
  - intros t p Hp Hc. exact (same_phase _ _ _ _ _ _ _ _ S2 (K2 _ _ (C _ _ _ Hp Hc) Hc)).
Qed.

(** thread [t] goes on in a function of [h] *)
Lemma kept_step s s' t h p' : kept s -> clients s' = upd (clients s) t p' ->
  (forall h0, h0 <> h -> emutex (hs s' h0) = emutex (hs s h0) /\ same h0 (hs s h0) (hs s' h0) (callbacks s) (callbacks s') (history s) (history s')) ->
  (forall h0, h0 <> h -> crit h0 p' = false) -> (forall u q, u <> t -> nth_error (clients s) u = Some q -> crit h q = false) ->
  (emutex (hs s' h) = false -> resting h (hs s' h) (callbacks s') (history s')) -> (crit h p' = true -> phase h p' (hs s' h) (callbacks s') (history s')) -> kept s'.
Proof.
  intros K C S P O H1 H2 h0. destruct (Nat.eq_dec h0 h) as [->|D].
  - split; [exact H1|]. intros u q Hq Hc. rewrite C in Hq. destruct (nth_upd _ _ _ _ _ Hq) as [[-> ->]|[D Hu]]; [exact (H2 Hc)|]. rewrite (O _ _ D Hu) in Hc. discriminate.
  - destruct (K h0) as [K1 K2]. destruct (S _ D) as [S1 S2]. split.
    + intro H. rewrite S1 in H. exact (same_resting _ _ _ _ _ _ _ S2 (K1 H)).
    + intros u q Hq Hc. rewrite C in Hq. destruct (nth_upd _ _ _ _ _ Hq) as [[-> ->]|[_ Hu]]; [rewrite (P _ D) in Hc; discriminate|].
      exact (same_phase _ _ _ _ _ _ _ _ S2 (K2 _ _ Hu Hc)).
Qed.

Lemma alone_free s t h : mutexes s -> emutex (hs s h) = false -> forall u q, u <> t -> nth_error (clients s) u = Some q -> crit h q = false.
Proof.
  intros I E u q _ Hq. destruct (I h) as [I1 _]. rewrite E in I1. cbn [b2n] in I1. pose proof (number_ge (fun x => b2n (crit h x)) _ _ _ Hq) as G. cbn beta in G.
  destruct (crit h q); [|reflexivity]. cbn [b2n] in G. lia.
Qed.
Lemma alone_crit s t p h : mutexes s -> nth_error (clients s) t = Some p -> crit h p = true -> forall u q, u <> t -> nth_error (clients s) u = Some q -> crit h q = false.
Proof.
  intros I Hp Hc u q D Hq. destruct (crit h q) eqn:G; [|reflexivity]. exfalso. destruct (I h) as [I1 _].
  pose proof (number_two (fun x => b2n (crit h x)) _ _ _ _ _ D Hq Hp) as T. cbn beta in T. rewrite G, Hc in T. cbn [b2n] in T. destruct (emutex (hs s h)); cbn [b2n] in I1; lia.
Qed.
