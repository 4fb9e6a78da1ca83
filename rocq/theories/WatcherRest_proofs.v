(** Proofs of C158: a potential that every step of the threads decreases. *)
From Verif Require Import Watcher_model Watcher_spec Watcher_proofs WatcherRest_spec.
Local Arguments number_of : simpl never.

Definition more (i : list (kind * str)) : nat := match i with [] => 0 | _ :: _ => 6 end.
Definition late (d : bool) : nat := if d then 6 else 0.
Definition cl (c : dpc) (i : list (kind * str)) (d : bool) : nat :=
  match c with
  | DSleep | DNone | DEnded => more i | DBlock => 1 + more i | DPred => 2 + more i + late d | DLook | DWake => 3 + more i + late d | DLock => 4 + more i + late d | DTest => 5 + more i
  | DRun l => 6 + 2 * List.length l + more i | DIn l => 7 + 2 * List.length l + more i | DSwap => 7
  | DNest _ _ | DSelf => 0
  end.
Definition wl (w : wpc) : nat := match w with WTest => 1 | WNotify => 12 | WPut l => 20 + 2 * List.length l | _ => 0 end.
Definition left (p : cpc) : nat :=
  match p with
  | CIdle => 0
  | EIn | SUnlock | UUnlock => 1
  | ELock | UFlag => 2
  | UJoinD => 3 | UJoinW => 4 | UNotify => 20 | URemove => 60 | UStop => 100 | UClear => 101 | ULock => 102
  | SStart => 20 | SSet => 21 | SLock => 22
  end.
Definition potential (s : wstate) : nat := cl (calling s) (info s) (destroyed s) + 2 * List.length (info s) + wl (watching s) + 30 * List.length (kqueue s) + number_of left (clients s).

Lemma cl_info c i l d : cl c (i ++ l) d <= cl c i d + 6.
Proof. unfold cl, more. destruct c, i, l; cbn [app]; lia. Qed.
Lemma cl_late c i d : cl c i true <= cl c i d + 6.
Proof. unfold cl, late. destruct c, d; lia. Qed.
Lemma more_bound i : more i <= 6.
Proof. unfold more. destruct i; lia. Qed.
Lemma late_bound d : late d <= 6.
Proof. unfold late. destruct d; lia. Qed.
Local Arguments cl : simpl nomatch.
Local Arguments wl : simpl nomatch.
Local Arguments more : simpl nomatch.
Local Arguments late : simpl nomatch.
Lemma step_less pass s l s' : locks s -> (forall b l, calling s <> DNest b l) -> calling s <> DSelf -> own_step l -> wstep pass s l = Some s' -> potential s' < potential s.
Proof.
  intros (_ & _ & L) Q1 Q2 O E. crack E; try contradiction O.
  all: try congruence; try (exfalso; eapply Q1; first [eassumption|reflexivity]).
  all: unfold potential; sf; tm; rewrite ?app_length; cbn [List.length app cl wl more late].
  all: try match goal with H : nth_error (clients ?x) ?t = Some _ |- context [upd (clients ?x) ?t ?q] => pose proof (number_upd left _ _ q _ H) as U; cbn [left] in U end.
  all: try match goal with |- context [parse ?f ?x] => pose proof (parse_length f x) end; rewrite ?firstn_length, ?skipn_length in *.
  all: repeat match goal with H : info _ = _ |- _ => rewrite H in *; cbn [List.length more] | H : destroyed _ = _ |- _ => rewrite H in *; cbn [late] end.
  all: repeat match goal with |- context [more ?i] => pose proof (more_bound i); generalize dependent (more i); intros | |- context [late ?i] => pose proof (late_bound i); generalize dependent (late i); intros end.
  all: try match goal with |- context [cl ?c ?i true] => match goal with |- context [cl c i (destroyed ?x)] => pose proof (cl_late c i (destroyed x)) end | |- context [cl ?c (?i ++ ?l) ?d] => pose proof (cl_info c i l d) end.
  all: lia.
Qed.
Lemma few_steps pass n ls : forall s s', wreachable pass quiet n s -> Forall own_step ls -> wsteps pass s ls = Some s' -> wreachable pass quiet n s' /\ length ls + potential s' <= potential s.
Proof.
  induction ls as [|l ls IH]; intros s s' R F E; cbn [wsteps] in E; [injection E as <-; split; [exact R|cbn; lia]|].
  destruct (wstep pass s l) as [s0|] eqn:E0; [|discriminate]. inversion F as [|? ? F1 F2]; subst. destruct (reach_inv _ _ _ _ R) as [L _]. destruct (quiet_caller _ _ _ R) as [Q1 Q2].
  pose proof (step_less pass s l s0 L Q1 Q2 F1 E0) as D.
  destruct (IH s0 s') as [R' L']; [econstructor; [exact R|apply own_quiet; exact F1|exact E0]|exact F2|exact E|]. split; [exact R'|]. cbn [length]. lia.
Qed.
Lemma at_rest_lemma pass n s : wreachable pass quiet n s -> at_rest pass s -> ~ deaf s -> ~ forgotten s -> all_done s.
Proof.
  intros R Q D F. assert (C : forall t p, nth_error (clients s) t = Some p -> p = CIdle).
  { intros t p Hp. assert (X : p = CIdle \/ inside p) by (destruct p; try (left; reflexivity); right; discriminate). destruct X as [X|X]; [exact X|].
    destruct (progress_lemma pass n s t p R Hp X) as [(l & s' & O & E)|[K|K]]; [rewrite (Q l O) in E; discriminate|contradiction|contradiction]. }
  split; [exact C|]. split.
  - intros S Fl. split; [exact (watched_lemma _ _ _ R C S Fl)|exact (delivered_lemma _ _ _ R C S Fl Q)].
  - intro S. exact (proj2 (unset_lemma _ _ _ _ R S)).
Qed.
Lemma rest_lemma : forall pass n s, wreachable pass calm n s -> exists bound, forall ls s', Forall own_step ls -> wsteps pass s ls = Some s' ->
  length ls <= bound /\ (at_rest pass s' -> ~ forgotten s' -> all_done s').
Proof.
  intros pass n s R. exists (potential s). intros ls s' F E. destruct (few_steps pass n ls s s' (calm_quiet _ _ _ R) F E) as [R' L]. split; [lia|]. intros Q N. apply (at_rest_lemma pass n s' R' Q); [|exact N].
  apply (not_deaf pass n). eapply reach_steps; [exact R| |exact E]. eapply Forall_impl; [|exact F]. intros l O. destruct l; try contradiction; exact I.
Qed.
(** nobody is forgotten if nothing comes between the test and the sleep *)
Lemma tight_rest_lemma : forall pass n s, wtight pass n s -> at_rest pass s -> all_done s.
Proof.
  intros pass n s T Q. pose proof (tight_calm _ _ _ T) as Rc. pose proof (calm_quiet _ _ _ Rc) as R.
  assert (C : forall t p, nth_error (clients s) t = Some p -> p = CIdle).
  { intros t p Hp. assert (X : p = CIdle \/ inside p) by (destruct p; try (left; reflexivity); right; discriminate). destruct X as [X|X]; [exact X|].
    destruct (tight_lemma pass n s t p T Hp X) as (l & s' & O & E). rewrite (Q l O) in E. discriminate. }
  split; [exact C|]. split.
  - intros S Fl. split; [exact (watched_lemma _ _ _ R C S Fl)|exact (delivered_lemma _ _ _ R C S Fl Q)].
  - intro S. exact (proj2 (unset_lemma _ _ _ _ R S)).
Qed.
