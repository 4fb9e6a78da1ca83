From Verif Require Import TaskId_model TaskId_spec.
From Coq Require Import NArith Lia ZifyN ZifyNat.
Local Open Scope N_scope.

Fixpoint taken (evs : list (lev id_op N)) : list N :=
  match evs with LDo _ _ r :: evs' => r :: taken evs' | _ :: evs' => taken evs' | [] => [] end.

Definition pending (p : id_pc) : nat := match p with IdDone _ => 1%nat | _ => O end.
Definition called (p : id_pc) : nat := match p with IdIdle => O | _ => 1%nat end.

Definition ids (k : nat) : list N := map (fun i => N.of_nat i mod task_id_values) (rev (seq 0 k)).

Lemma ids_S k : ids (S k) = N.of_nat k mod task_id_values :: ids k.
Proof. unfold ids. rewrite seq_S, rev_app_distr. reflexivity. Qed.

Record II (s : id_state) : Prop := {
  ii_list : taken (id_events s) = ids (length (taken (id_events s)));
  ii_counter : counter s = N.of_nat (length (taken (id_events s))) mod task_id_values;
  ii_returned : forall r, In r (returned (id_events s)) -> In r (taken (id_events s));
  ii_done : forall t r, nth_error (id_pcs s) t = Some (IdDone r) -> In r (taken (id_events s));
  ii_calls : (length (taken (id_events s)) + number_of called (id_pcs s) = calls (id_events s) + number_of pending (id_pcs s))%nat;
  ii_nodup : NoDup (taken (id_events s)) -> NoDup (returned (id_events s)) /\
    (forall t r, nth_error (id_pcs s) t = Some (IdDone r) -> ~ In r (returned (id_events s))) /\
    (forall t u r, nth_error (id_pcs s) t = Some (IdDone r) -> nth_error (id_pcs s) u = Some (IdDone r) -> t = u) }.

Lemma ii_init n : II (id_init n).
Proof.
  split; cbn -[ids]; try reflexivity.
  - intros r [].
  - intros t r H. apply nth_all in H. discriminate.
  - rewrite !number_repeat by reflexivity. reflexivity.
  - intros _. split; [constructor|]. split; [intros t r H|intros t u r H _]; apply nth_all in H; discriminate.
Qed.

Lemma ii_step s t s' : II s -> id_step s t = Some s' -> II s'.
Proof.
  intros I E. pose proof (ii_calls s I) as C. unfold id_step in E. destruct (nth_error (id_pcs s) t) as [[| |r]|] eqn:P; [| | |discriminate]; injection E as <-.
  - split; cbn -[ids]; try apply I.
    + intros u r Hu. destruct (nth_upd _ _ _ _ _ Hu) as [[_ X]|[_ X]]; [discriminate|exact (ii_done s I _ _ X)].
    + pose proof (number_upd called _ _ IdCalled _ P) as Q. pose proof (number_upd pending _ _ IdCalled _ P) as Q'. cbn in Q, Q'. lia.
    + intro D. destruct (ii_nodup s I D) as (A & B & U). split; [exact A|]. split.
      * intros u r Hu. destruct (nth_upd _ _ _ _ _ Hu) as [[_ X]|[_ X]]; [discriminate|eauto].
      * intros u v r Hu Hv. destruct (nth_upd _ _ _ _ _ Hu) as [[_ X]|[_ X]]; [discriminate|]. destruct (nth_upd _ _ _ _ _ Hv) as [[_ Y]|[_ Y]]; [discriminate|eauto].
  - split; cbn -[ids].
    + rewrite (ii_counter s I). rewrite ids_S. f_equal. apply I.
    + rewrite (ii_counter s I). unfold task_id_values. rewrite N.add_mod_idemp_l by discriminate. f_equal. lia.
    + intros r Hr. right. apply I. exact Hr.
    + intros u r Hu. destruct (nth_upd _ _ _ _ _ Hu) as [[_ X]|[_ X]]; [injection X as ->; left; reflexivity|right; exact (ii_done s I _ _ X)].
    + pose proof (number_upd called _ _ (IdDone (counter s)) _ P) as Q. pose proof (number_upd pending _ _ (IdDone (counter s)) _ P) as Q'. cbn in Q, Q'. lia.
    + intro D. apply NoDup_cons_iff in D as [D1 D]. destruct (ii_nodup s I D) as (A & B & U). split; [exact A|]. split.
      * intros u r Hu. destruct (nth_upd _ _ _ _ _ Hu) as [[_ X]|[_ X]].
        -- injection X as ->. intro H. apply D1. apply I. exact H.
        -- exact (B _ _ X).
      * intros u v r Hu Hv. destruct (nth_upd _ _ _ _ _ Hu) as [[-> X]|[Nu X]], (nth_upd _ _ _ _ _ Hv) as [[-> Y]|[Nv Y]].
        -- reflexivity.
        -- injection X as ->. destruct (D1 (ii_done s I _ _ Y)).
        -- injection Y as ->. destruct (D1 (ii_done s I _ _ X)).
        -- eauto.
  - split; cbn -[ids]; try apply I.
    + intros x [<-|Hx]; [exact (ii_done s I _ _ P)|apply I; exact Hx].
    + intros u x Hu. destruct (nth_upd _ _ _ _ _ Hu) as [[_ X]|[_ X]]; [discriminate|exact (ii_done s I _ _ X)].
    + pose proof (number_upd called _ _ IdIdle _ P) as Q. pose proof (number_upd pending _ _ IdIdle _ P) as Q'. cbn in Q, Q'. lia.
    + intro D. destruct (ii_nodup s I D) as (A & B & U). split; [constructor; [exact (B _ _ P)|exact A]|]. split.
      * intros u x Hu. destruct (nth_upd _ _ _ _ _ Hu) as [[_ X]|[Nu X]]; [discriminate|].
        intros [<-|H]; [exact (Nu (U _ _ _ X P))|exact (B _ _ X H)].
      * intros u v x Hu Hv. destruct (nth_upd _ _ _ _ _ Hu) as [[_ X]|[_ X]]; [discriminate|]. destruct (nth_upd _ _ _ _ _ Hv) as [[_ Y]|[_ Y]]; [discriminate|eauto].
Qed.

Lemma ii_run ts : forall s s', II s -> id_run s ts = Some s' -> II s'.
Proof.
  induction ts as [|t ts IH]; cbn; intros s s' I E; [injection E as <-; exact I|].
  destruct (id_step s t) as [s0|] eqn:E0; [|discriminate]. exact (IH _ _ (ii_step _ _ _ I E0) E).
Qed.

Lemma pending_called l : (number_of pending l <= number_of called l)%nat.
Proof. induction l as [|[] l IH]; unfold number_of in *; cbn in *; lia. Qed.

Lemma ids_nodup k : (N.of_nat k <= task_id_values) -> NoDup (ids k).
Proof.
  induction k as [|k IH]; intro K; [constructor|]. rewrite ids_S. constructor; [|apply IH; lia].
  unfold ids. rewrite in_map_iff. intros (i & H & Hi). apply in_rev in Hi. apply in_seq in Hi. rewrite !N.mod_small in H by lia. lia.
Qed.

Lemma unique_lemma n ts s : id_run (id_init n) ts = Some s -> N.of_nat (calls (id_events s)) <= 2 ^ 32 -> NoDup (returned (id_events s)).
Proof.
  intros E C. pose proof (ii_run _ _ _ (ii_init n) E) as I. apply (ii_nodup s I). rewrite (ii_list s I). apply ids_nodup.
  pose proof (ii_calls s I). pose proof (pending_called (id_pcs s)). unfold task_id_values. lia.
Qed.

(** thread 0 makes k calls *)
Fixpoint results (c : N) (k : nat) : list N := match k with O => [] | S k' => results ((c + 1) mod task_id_values) k' ++ [c] end.

Lemma alone k : forall s, id_pcs s = [IdIdle] -> exists s', id_run s (repeat 0%nat (3 * k)) = Some s' /\ id_pcs s' = [IdIdle] /\
  returned (id_events s') = results (counter s) k ++ returned (id_events s) /\ calls (id_events s') = (k + calls (id_events s))%nat.
Proof.
  induction k as [|k IH]; intros s P.
  - exists s. repeat split; auto.
  - replace (3 * S k)%nat with (S (S (S (3 * k))))%nat by lia. cbn [repeat id_run]. unfold id_step at 1. rewrite P. cbn [nth_error].
    unfold id_step at 1. cbn [id_pcs upd nth_error]. unfold id_step at 1. cbn [id_pcs nth_error upd].
    match goal with |- context [id_run ?x _] => destruct (IH x eq_refl) as (s' & A & B & C & D) end.
    exists s'. split; [exact A|]. split; [exact B|]. cbn in C, D. split; [|lia]. rewrite C. cbn. rewrite <- app_assoc. reflexivity.
Qed.

Lemma results_length k : forall c, length (results c k) = k.
Proof. induction k as [|k IH]; intro c; [reflexivity|]. cbn. rewrite app_length, IH. cbn. lia. Qed.
Lemma results_first c k : exists l, results c (S k) = l ++ [c].
Proof. cbn. eauto. Qed.
Lemma results_next k : forall c, c < task_id_values -> exists l, results c (S k) = (c + N.of_nat k) mod task_id_values :: l.
Proof.
  induction k as [|k IH]; intros c L.
  - exists []. cbn. rewrite N.add_0_r, N.mod_small by exact L. reflexivity.
  - change (results c (S (S k))) with (results ((c + 1) mod task_id_values) (S k) ++ [c]).
    destruct (IH ((c + 1) mod task_id_values)) as [l E]; [apply N.mod_lt; discriminate|]. rewrite E.
    exists (l ++ [c]). cbn [app]. f_equal. unfold task_id_values. rewrite N.add_mod_idemp_l by discriminate. f_equal. lia.
Qed.

Lemma exhausted_refute : exists ts s, id_run (id_init 1) ts = Some s /\ N.of_nat (calls (id_events s)) = 2 ^ 32 + 1 /\ ~ NoDup (returned (id_events s)).
Proof.
  set (k := N.to_nat (2 ^ 32)). assert (K : N.of_nat k = 2 ^ 32) by apply N2Nat.id. clearbody k.
  destruct (alone (S k) (id_init 1) eq_refl) as (s & A & _ & B & C). exists (repeat 0%nat (3 * S k)), s.
  split; [exact A|]. split; [rewrite C; change (calls (id_events (id_init 1))) with O; lia|].
  rewrite B. cbn [returned id_events id_init]. rewrite app_nil_r. change (counter (id_init 1)) with 0.
  destruct (results_next k 0) as [l E]; [reflexivity|]. destruct (results_first 0 k) as [l' E']. intro D.
  rewrite N.add_0_l, K in E. change (2 ^ 32 mod task_id_values) with 0 in E. rewrite E in E', D.
  destruct l' as [|x l'].
  - injection E' as ->. pose proof (f_equal (@length N) E) as X. rewrite results_length in X. cbn in X. lia.
  - injection E' as _ ->. inversion D as [|? ? D1 _]. apply D1. apply in_or_app. right. left. reflexivity.
Qed.

(** the calls take effect one at a time *)
Record LI (s : id_state) : Prop := {
  li_seq : sequential next_id 0 (id_events s) (counter s);
  li_ph : forall t, match nth_error (id_pcs s) t with
    | Some IdCalled => thread_phase t (id_events s) (Called NewId)
    | Some (IdDone r) => thread_phase t (id_events s) (Done NewId r)
    | _ => thread_phase t (id_events s) NotCalled end }.

Lemma li_init n : LI (id_init n).
Proof.
  split; cbn; [constructor|]. intro t. destruct (nth_error (repeat IdIdle n) t) as [p|] eqn:E; [|constructor].
  apply nth_all in E as ->. constructor.
Qed.

Lemma li_step s t s' : LI s -> id_step s t = Some s' -> LI s'.
Proof.
  intros [Q P] E. unfold id_step in E. pose proof (P t) as Pt. destruct (nth_error (id_pcs s) t) as [[| |r]|] eqn:G; [| | |discriminate]; injection E as <-.
  all: split; cbn; [econstructor; eauto; split; reflexivity|].
  all: intro u; destruct (Nat.eq_dec t u) as [<-|D]; [rewrite (nth_upd_same _ _ _ _ G); constructor; exact Pt|].
  all: rewrite nth_upd_other by exact D; specialize (P u); destruct (nth_error (id_pcs s) u) as [[]|]; apply ph_other; auto.
Qed.

Lemma linear_lemma n ts s : id_run (id_init n) ts = Some s -> linearizable next_id 0 (id_events s).
Proof.
  assert (G : forall ts s s', LI s -> id_run s ts = Some s' -> LI s').
  { clear. induction ts as [|t ts IH]; cbn; intros s s' I E; [injection E as <-; exact I|].
    destruct (id_step s t) as [s0|] eqn:E0; [|discriminate]. exact (IH _ _ (li_step _ _ _ I E0) E). }
  intro E. destruct (G _ _ _ (li_init n) E) as [Q P]. split; [eauto|]. intro t. specialize (P t). destruct (nth_error (id_pcs s) t) as [[]|]; eauto.
Qed.
