(** Proofs of C151. *)
From Coq Require Import Lia.
From Verif Require Import Str_proofs CmakeWin_model CmakeWin_spec.

Lemma libraries_in g rec ls : forall local r, libraries g rec ls local = Some r ->
  (forall e, In e r <-> In e local \/ exists l d, In l ls /\ interface g l = Some false /\ rec l = Some d /\ (e = Target l \/ In e d)) /\
  (forall l, In l ls -> interface g l = Some false -> exists d, rec l = Some d).
Proof.
  induction ls as [|l ls IH]; intros local r H; cbn [libraries] in H.
  - inversion H; subst. split; [|intros l []]. intro e. split; [auto|]. intros [I|(l & d & [] & _)]. exact I.
  - destruct (interface g l) as [[|]|] eqn:K.
    + destruct (IH _ _ H) as [A B]. split.
      * intro e. rewrite A. split; (intros [I|(m & d & I & M)]; [auto|right; exists m, d]); [split; [now right|exact M]|]. destruct I as [<- |I]; [destruct M; congruence|auto].
      * intros m [<- |I] M; [congruence|now apply B].
    + destruct (rec l) as [d|] eqn:R; [|discriminate]. destruct (IH _ _ H) as [A B]. split.
      * intro e. rewrite A, in_app_iff. cbn [In]. split.
        -- intros [[I|[<- |I]]|(m & d' & I & M)]; [right; exists l, d; auto 6 using in_eq|right; exists l, d; auto 6 using in_eq|auto|right; exists m, d'; split; [now right|exact M]].
        -- intros [I|(m & d' & [<- |I] & M & R' & E)]; [auto| |right; exists m, d'; auto]. rewrite R in R'. inversion R'; subst d'. left. destruct E as [-> |E]; auto.
      * intros m [<- |I] M; [eauto|now apply B].
    + destruct (IH _ _ H) as [A B]. split.
      * intro e. rewrite A. split; (intros [I|(m & d & I & M)]; [auto|right; exists m, d]); [split; [now right|exact M]|]. destruct I as [<- |I]; [destruct M; congruence|auto].
      * intros m [<- |I] M; [congruence|now apply B].
Qed.
Lemma extra_in fuel g : forall t r, extra fuel g t = Some r -> forall e, In e r <-> exists l, e = Target l /\ depends_files g t l.
Proof.
  induction fuel as [|f IH]; intros t r H e; [discriminate|]. cbn [extra] in H. destruct (libraries_in g (extra f g) (links g t) [] r H) as [A B]. rewrite A. split.
  - intros [[]|(l & d & I & K & R & [-> |E])]; [exists l; split; [reflexivity|now apply files_link]|]. apply (IH l d R) in E. destruct E as (m & -> & D). exists m. split; [reflexivity|]. eapply files_more; eauto.
  - intros (m & -> & D). right. inversion D as [t' l I K|t' l m' I K D']; subst.
    + destruct (B m I K) as (d & R). exists m, d. auto.
    + destruct (B l I K) as (d & R). exists l, d. split; [exact I|]. split; [exact K|]. split; [exact R|]. right. apply (IH l d R). eauto.
Qed.
Lemma libraries_some g rec ls : (forall l, In l ls -> interface g l = Some false -> exists d, rec l = Some d) -> forall local, exists r, libraries g rec ls local = Some r.
Proof.
  induction ls as [|l ls IH]; intros H local; cbn [libraries]; [eauto|]. assert (H' : forall m, In m ls -> interface g m = Some false -> exists d, rec m = Some d) by (intros m I; apply H; now right).
  destruct (interface g l) as [[|]|] eqn:K; [now apply IH| |now apply IH]. destruct (H l (or_introl eq_refl) K) as (d & ->). now apply IH.
Qed.
Lemma extra_level g level : (forall t l, In l (links g t) -> interface g l = Some false -> level l < level t) -> forall fuel t, level t < fuel -> exists r, extra fuel g t = Some r.
Proof.
  intros L fuel. induction fuel as [|f IH]; intros t H; [lia|]. cbn [extra]. apply libraries_some. intros l I K. apply IH. specialize (L t l I K). lia.
Qed.
Lemma dir_eqb_eq a b : dir_eqb a b = true <-> a = b.
Proof. destruct a as [x|x], b as [y|y]; cbn [dir_eqb]; try rewrite str_eqb_eq; split; intro H; congruence. Qed.
Lemma remove_in l e : In e (remove_duplicates l) <-> In e l.
Proof.
  induction l as [|d l IH]; cbn [remove_duplicates In]; [tauto|]. rewrite filter_In, IH. split.
  - tauto.
  - intros [-> |I]; [auto|]. destruct (dir_eqb d e) eqn:E; [apply dir_eqb_eq in E; auto|auto].
Qed.
Lemma nodup_filter {A} (f : A -> bool) l : NoDup l -> NoDup (filter f l).
Proof. induction 1 as [|x l N D IH]; cbn [filter]; [constructor|]. destruct (f x); [constructor; [|exact IH]|exact IH]. rewrite filter_In. tauto. Qed.
Lemma remove_nodup l : NoDup (remove_duplicates l).
Proof.
  induction l as [|d l IH]; cbn [remove_duplicates]; [constructor|]. constructor; [|now apply nodup_filter]. rewrite filter_In. intros [_ H]. apply Bool.negb_true_iff in H.
  assert (E : dir_eqb d d = true) by now apply dir_eqb_eq. congruence.
Qed.
Lemma filter_split {A} (f : A -> bool) (a b : list A) : filter f (a ++ b) = filter f a ++ filter f b.
Proof. apply filter_app. Qed.
Lemma filter_map {A B} (m : A -> B) (f : B -> bool) (h : A -> bool) l : (forall x, f (m x) = h x) -> filter f (map m l) = map m (filter h l).
Proof. intro H. induction l as [|x l IH]; [reflexivity|]. cbn [map filter]. rewrite H. destruct (h x); cbn [map]; now rewrite IH. Qed.
Lemma filter_true {A} (f : A -> bool) l : (forall x, f x = true) -> filter f l = l.
Proof. intro H. induction l as [|x l IH]; [reflexivity|]. cbn [filter]. now rewrite H, IH. Qed.
(** the part of the targets comes first *)
Lemma remove_app l env : (forall e, In e l -> exists t, e = Target t) -> exists r, remove_duplicates (l ++ map Environment env) = remove_duplicates l ++ map Environment r /\ (forall d, In d r <-> In d env) /\ NoDup r.
Proof.
  induction l as [|d l IH]; intro H; cbn [app remove_duplicates].
  - assert (K : forall m : list str, exists r, remove_duplicates (map Environment m) = map Environment r).
    { induction m as [|x m (r & E)]; cbn [map remove_duplicates]; [exists []; reflexivity|]. rewrite E. exists (x :: filter (fun y => negb (str_eqb x y)) r). cbn [map]. f_equal. apply filter_map. reflexivity. }
    destruct (K env) as (r & E). exists r. split; [exact E|]. split.
    + intro x. assert (I : In (Environment x) (remove_duplicates (map Environment env)) <-> In (Environment x) (map Environment r)) by now rewrite E.
      rewrite remove_in in I. rewrite !in_map_iff in I. split; intro J.
      * destruct (proj2 I (ex_intro _ x (conj eq_refl J))) as (y & Y & Z). inversion Y; now subst.
      * destruct (proj1 I (ex_intro _ x (conj eq_refl J))) as (y & Y & Z). inversion Y; now subst.
    + pose proof (remove_nodup (map Environment env)) as D. rewrite E in D. eapply NoDup_map_inv; exact D.
  - destruct IH as (r & E & A & B); [intros e I; apply H; now right|]. destruct (H d (or_introl eq_refl)) as (t & ->). exists r. split; [|auto]. rewrite E, filter_app. cbn [app]. f_equal. f_equal.
    rewrite (filter_map Environment _ (fun _ => true)) by reflexivity. now rewrite (filter_true (fun _ => true)).
Qed.

Lemma path_lemma fuel g env t r : win32_path fuel g env t = Some r ->
  exists a b, r = map Target a ++ map Environment b /\ NoDup a /\ NoDup b /\ (forall l, In l a <-> depends_files g t l) /\ (forall d, In d b <-> In d env).
Proof.
  unfold win32_path. destruct (extra fuel g t) as [l|] eqn:E; [|discriminate]. cbn [option_map]. intro H. inversion H; subst r. clear H.
  pose proof (extra_in fuel g t l E) as A.
  assert (T : forall e, In e l -> exists x, e = Target x) by (intros e I; apply A in I; destruct I as (x & -> & _); eauto).
  destruct (remove_app l env T) as (b & R & B & D).
  assert (K : exists a, remove_duplicates l = map Target a).
  { assert (M : forall e, In e (remove_duplicates l) -> exists x, e = Target x) by (intros e I; apply T; now apply remove_in). revert M. generalize (remove_duplicates l) as m. induction m as [|e m IH]; intro M; [exists []; reflexivity|].
    destruct (M e (or_introl eq_refl)) as (x & ->). destruct IH as (a & ->); [intros e I; apply M; now right|]. exists (x :: a). reflexivity. }
  destruct K as (a & K). exists a, b. rewrite R, K. split; [reflexivity|]. split; [pose proof (remove_nodup l) as N; rewrite K in N; eapply NoDup_map_inv; exact N|]. split; [exact D|]. split; [|exact B].
  intro x. assert (I : In (Target x) (remove_duplicates l) <-> In (Target x) (map Target a)) by now rewrite K. rewrite remove_in, A, in_map_iff in I. split; intro J.
  - destruct (proj2 I (ex_intro _ x (conj eq_refl J))) as (y & Y & Z). inversion Y; now subst.
  - destruct (proj1 I (ex_intro _ x (conj eq_refl J))) as (y & Y & Z). inversion Y; now subst.
Qed.
Lemma returns_lemma g env : acyclic g -> forall t, exists fuel r, forall more, win32_path (fuel + more) g env t = Some r.
Proof.
  intros (level & L) t. exists (S (level t)).
  assert (M : forall f f' u d, f <= f' -> extra f g u = Some d -> extra f' g u = Some d).
  { induction f as [|f IH]; intros f' u d H E; [discriminate|]. destruct f' as [|f']; [lia|]. cbn [extra] in *.
    assert (X : forall ls local d, libraries g (extra f g) ls local = Some d -> libraries g (extra f' g) ls local = Some d).
    { induction ls as [|l ls IHl]; intros local d0 H0; cbn [libraries] in *; [exact H0|]. destruct (interface g l) as [[|]|]; auto. destruct (extra f g l) as [x|] eqn:EX; [|discriminate].
      rewrite (IH f' l x) by (lia || exact EX). auto. }
    now apply X. }
  destruct (extra_level g level L (S (level t)) t) as (d & E); [lia|]. exists (remove_duplicates (d ++ map Environment env)). intro more. unfold win32_path. rewrite (M (S (level t)) (S (level t) + more) t d); [reflexivity|lia|exact E].
Qed.
Lemma depends_sound g t l : depends_files g t l -> depends g t l /\ interface g l = Some false.
Proof. induction 1 as [t l I K|t l m I K D [A B]]; split; auto; [now apply depends_link|eapply depends_more; eauto]. Qed.
(** without interface libraries that are linked to anything *)
Lemma depends_complete g t l : (forall i j, interface g i <> Some false -> In j (links g i) -> False) -> depends g t l -> interface g l = Some false -> depends_files g t l.
Proof.
  intros N. induction 1 as [t l I|t l m I D IH]; intro K; [now apply files_link|]. destruct (interface g l) as [[|]|] eqn:E; [| |].
  - exfalso. inversion D; subst; eapply (N l); eauto; congruence.
  - eapply files_more; eauto.
  - exfalso. inversion D; subst; eapply (N l); eauto; congruence.
Qed.

(** a test linked to an interface library that stands for a library with a file *)
Definition through_interface : targets :=
  {| interface := fun l => if str_eqb l (s "headers") then Some true else if str_eqb l (s "core") then Some false else None;
     links := fun t => if str_eqb t (s "unittest") then [s "headers"] else if str_eqb t (s "headers") then [s "core"] else [] |}.
Lemma interface_refute : exists g t l, acyclic g /\ depends g t l /\ library g l /\ forall fuel env r, win32_path fuel g env t = Some r -> ~ In (Target l) r.
Proof.
  exists through_interface, (s "unittest"), (s "core"). split; [|split; [|split]].
  - exists (fun t => if str_eqb t (s "headers") then 1 else 0). intros t l I K. unfold through_interface in *. cbn [links interface] in *.
    destruct (str_eqb t (s "unittest")); [destruct I as [<- |[]]; discriminate K|]. destruct (str_eqb t (s "headers")) eqn:H; [|destruct I].
    destruct I as [<- |[]]. vm_compute. auto.
  - eapply depends_more; [left; reflexivity|]. apply depends_link. left. reflexivity.
  - reflexivity.
  - intros [|fuel] env r H; [discriminate|]. unfold win32_path in H. change (extra (Datatypes.S fuel) through_interface (s "unittest")) with (Some (@nil dir)) in H. cbn [option_map app] in H. inversion H; subst r.
    rewrite remove_in, in_map_iff. intros (x & X & _). discriminate X.
Qed.
(** static libraries that need each other, which CMake admits *)
Definition mutual : targets :=
  {| interface := fun l => Some false; links := fun t => if str_eqb t (s "left") then [s "right"] else if str_eqb t (s "right") then [s "left"] else [] |}.
Lemma mutual_none fuel : extra fuel mutual (s "left") = None /\ extra fuel mutual (s "right") = None.
Proof. induction fuel as [|f [A B]]; [auto|]. split; cbn [extra]; change (links mutual (s "left")) with [s "right"]; change (links mutual (s "right")) with [s "left"]; cbn [libraries]; change (interface mutual (s "left")) with (Some false); change (interface mutual (s "right")) with (Some false); cbn iota; [now rewrite B|now rewrite A]. Qed.
Lemma cycle_refute : exists g t, forall fuel env, win32_path fuel g env t = None.
Proof. exists mutual, (s "left"). intros fuel env. unfold win32_path. now rewrite (proj1 (mutual_none fuel)). Qed.

Lemma all_lemma fuel g env t r : (forall i j, interface g i <> Some false -> In j (links g i) -> False) -> win32_path fuel g env t = Some r ->
  forall l, In (Target l) r <-> depends g t l /\ library g l.
Proof.
  intros N H l. destruct (path_lemma fuel g env t r H) as (a & b & -> & _ & _ & A & _). rewrite in_app_iff, !in_map_iff. split.
  - intros [(x & X & I)|(x & X & _)]; [|discriminate X]. inversion X; subst x. apply A in I. now apply depends_sound.
  - intros [D L]. left. exists l. split; [reflexivity|]. apply A. now apply depends_complete.
Qed.
