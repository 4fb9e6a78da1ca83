(** Property C140. *)
From Verif Require Import Atomicable_model Atomicable_spec Atomicable_proofs.

(** Whatever the object and its methods are, uses with a guard take effect one at a time, each as if no other thread existed, and no
    access is a data race.  [const] methods leave the object as it is. *)
Theorem C140_atomic : forall (T M R : Type) (method : M -> T -> T * R) (const : M -> bool), (forall m x, const m = true -> fst (method m x) = x) ->
  forall x n s, areachable method const (guarded const) x n s -> linearizable (at_once method) x (aevents s) /\ araced s = false.
Proof. exact atomic_lemma. Qed.
Print Assumptions C140_atomic.

(** When nobody uses the object it is what the uses have left, one after another. *)
Theorem C140_object : forall (T M R : Type) (method : M -> T -> T * R) (const : M -> bool), (forall m x, const m = true -> fst (method m x) = x) ->
  forall x n s, areachable method const (guarded const) x n s -> (forall t p, nth_error (apcs s) t = Some p -> p = AIdle) ->
  sequential (at_once method) x (aevents s) (object s).
Proof. exact quiet_lemma. Qed.
Print Assumptions C140_object.

(** No deadlock: every use of every thread can end, without new ones. *)
Theorem C140_returns : forall (T M R : Type) (method : M -> T -> T * R) (const : M -> bool), (forall m x, const m = true -> fst (method m x) = x) ->
  forall x n s t p, areachable method const (guarded const) x n s -> nth_error (apcs s) t = Some p ->
  exists ls s', (forall l, In l ls -> exists t, l = ARun t) /\ asteps method const s ls = Some s' /\ nth_error (apcs s') t = Some AIdle.
Proof. exact returns_lemma. Qed.
Print Assumptions C140_returns.

(** ** examples: a number that can be read and written *)
Inductive access := Get | Set_ (v : nat).
Definition number (m : access) (x : nat) : nat * nat := match m with Get => (x, x) | Set_ v => (v, v) end.
Definition is_const (m : access) : bool := match m with Get => true | Set_ _ => false end.
Lemma number_const m x : is_const m = true -> fst (number m x) = x.
Proof. destruct m; [reflexivity|discriminate]. Qed.
Notation nuse := (use access nat).
Definition increase (g : guard) : nuse := {| with_guard := g; body := Then Get (fun v => Then (Set_ (v + 1)) Finish) |}.
Definition look (g : guard) : nuse := {| with_guard := g; body := Then Get (fun v => Then Get (fun w => Finish (v + w))) |}.
Lemma look_guarded : guarded is_const (look Shared).
Proof. cbn. constructor; [reflexivity|]. intro. constructor; [reflexivity|]. intro. constructor. Qed.

Fixpoint all_ok (ok : nuse -> Prop) (ls : list (alabel access nat)) : Prop :=
  match ls with [] => True | ACall _ u :: ls => ok u /\ all_ok ok ls | _ :: ls => all_ok ok ls end.
Lemma reach_by ok x n ls : forall s s', areachable number is_const ok x n s -> all_ok ok ls -> asteps number is_const s ls = Some s' -> areachable number is_const ok x n s'.
Proof.
  induction ls as [|l ls IH]; cbn [asteps]; intros s s' R A H; [injection H as <-; exact R|].
  destruct (astep number is_const s l) as [s1|] eqn:E; [|discriminate]. destruct l as [t u|t]; cbn [all_ok] in A.
  - destruct A as [A B]. eapply IH; [eapply ar_call; eassumption|exact B|exact H].
  - eapply IH; [eapply ar_run; eassumption|exact A|exact H].
Qed.
Definition go (t k : nat) : list (alabel access nat) := repeat (ARun t) k.

(** two threads read at the same time while a third one waits to write; all end *)
Definition story : list (alabel access nat) :=
  [ACall 0 (look Shared); ACall 1 (look Shared); ACall 2 (increase Unique)] ++ go 0 2 ++ go 1 2 ++ go 0 6 ++ go 1 6 ++ go 2 8.
Example C140_nonvacuous : exists s, areachable number is_const (guarded is_const) 5 3 s /\ object s = 6 /\ (forall t p, nth_error (apcs s) t = Some p -> p = AIdle) /\
  In (LRet 0 (look Shared) 10) (aevents s) /\ In (LRet 2 (increase Unique) 6) (aevents s).
Proof.
  destruct (asteps number is_const (ainit 5 3) story) as [s|] eqn:E; [|vm_compute in E; discriminate]. exists s.
  assert (R : areachable number is_const (guarded is_const) 5 3 s).
  { eapply reach_by; [apply ar_init| |exact E]. cbn. pose proof look_guarded as L. cbn in L. auto. }
  vm_compute in E. injection E as <-. split; [exact R|]. split; [reflexivity|]. split; [intros [|[|[|[|t]]]] p; cbn; intro H; congruence|].
  split; cbn; tauto.
Qed.
(** a thread waits for two readers that are inside *)
Example C140_returns_nonvacuous : exists s, areachable number is_const (guarded is_const) 5 3 s /\ nth_error (apcs s) 2 = Some (ALock (increase Unique)) /\
  sharers s = 2 /\ astep number is_const s (ARun 2) = None.
Proof.
  destruct (asteps number is_const (ainit 5 3) ([ACall 0 (look Shared); ACall 1 (look Shared); ACall 2 (increase Unique)] ++ go 0 2 ++ go 1 2)) as [s|] eqn:E; [|vm_compute in E; discriminate]. exists s.
  assert (R : areachable number is_const (guarded is_const) 5 3 s).
  { eapply reach_by; [apply ar_init| |exact E]. cbn. pose proof look_guarded as L. cbn in L. auto. }
  vm_compute in E. injection E as <-. split; [exact R|]. repeat split.
Qed.

(** The class does not ask for a guard: without one there are data races, and with a shared one for writing, too. *)
Theorem C140_guard_needed : forall g, g = NoGuard \/ g = Shared -> exists s, areachable number is_const anyhow 5 2 s /\ araced s = true.
Proof.
  intros g G. set (ls := [ACall 0 (increase g); ACall 1 (increase g)] ++ go 0 4 ++ go 1 2).
  destruct (asteps number is_const (ainit 5 2) ls) as [s|] eqn:E; [|exfalso; destruct G as [-> | ->]; vm_compute in E; discriminate]. exists s.
  split; [eapply reach_by; [apply ar_init| |exact E]; cbn; unfold anyhow; tauto|]. destruct G as [-> | ->]; vm_compute in E; injection E as <-; reflexivity.
Qed.
Print Assumptions C140_guard_needed.
