From Verif Require Import PyTools_spec Float_proofs.
From Coq Require Import Lqa Lia.
Local Open Scope Q_scope.

Lemma run_last born resets : timer_run born resets = seconds_double (last_start born resets).
Proof.
  unfold timer_run, last_start. assert (G : forall l t b, t = seconds_double b -> fold_left (fun t c => timer_reset c t) l t = seconds_double (List.last l b)).
  { induction l as [|c l IH]; intros t b E; [exact E|]. cbn [fold_left]. rewrite (IH (timer_reset c t) c eq_refl). destruct l; [reflexivity|]. f_equal. clear. revert z. induction l as [|d l IH]; intro z; [reflexivity|]. change (List.last (d :: l) c = List.last (d :: l) b). apply IH. }
  apply G. reflexivity.
Qed.

Lemma small_exponent : 2 ^ (-1022) <= 1 # 1000000000000.
Proof. apply Qle_trans with (2 ^ (-40)); [apply two_le; lia|]. vm_compute. discriminate. Qed.

Lemma rnd_near x : 0 <= x -> Qabs (rnd x - x) <= x * (1 # 9007199254740992) + (1 # 1000000000000).
Proof.
  intro H. pose proof small_exponent as S. destruct (Qlt_le_dec x (2 ^ (-1022))) as [L|L].
  - pose proof (rnd_nonneg x) as N. assert (rnd x <= rnd (2 ^ (-1022))) as M by (apply rnd_mono; lra).
    assert (rnd (2 ^ (-1022)) == 2 ^ (-1022)) as E by (apply (rnd_exact 1 (-1022)); [split; [discriminate|vm_compute; discriminate]|discriminate|ring]).
    rewrite E in M. apply Qabs_Qle_condition. split; lra.
  - pose proof (rnd_err x L) as E. lra.
Qed.

Lemma seconds_eq ns : this_century ns -> seconds_double ns == rnd (rnd (inject_Z ns) / 1000000000).
Proof.
  intros [H0 H1]. unfold seconds_double. destruct (Z.eqb_spec (ns mod 1000000000) 0) as [E|_]; [|reflexivity].
  pose proof (Z.div_mod ns 1000000000 ltac:(discriminate)) as D. rewrite E, Z.add_0_r in D. set (k := (ns / 1000000000)%Z) in *.
  assert (K : (0 <= k < 2 ^ 32)%Z) by lia. apply rnd_comp.
  assert (R : rnd (inject_Z ns) == inject_Z ns).
  { apply (rnd_exact (k * 1953125) 9); [|discriminate|]; [split; [lia|apply Z.le_trans with (2 ^ 32 * 1953125)%Z; [nia|vm_compute; discriminate]]|].
    rewrite D. change (2 ^ 9) with (512 # 1). rewrite !inject_Z_mult. unfold inject_Z. field. }
  rewrite R, D, inject_Z_mult. field.
Qed.

Lemma seconds_mono a b : this_century a -> this_century b -> (a <= b)%Z -> seconds_double a <= seconds_double b.
Proof.
  intros A B L. rewrite (seconds_eq a A), (seconds_eq b B). apply rnd_mono. apply Qmult_le_compat_r; [|discriminate]. apply rnd_mono. apply inject_le. exact L.
Qed.

Lemma seconds_near ns : this_century ns -> Qabs (seconds_double ns - inject_Z ns / 1000000000) <= 1 # 1000000.
Proof.
  intros H. rewrite (seconds_eq ns H). destruct H as [H0 H1].
  assert (X0 : 0 <= inject_Z ns) by (change 0 with (inject_Z 0); apply inject_le; exact H0).
  assert (X1 : inject_Z ns <= 4294967296000000000) by (change 4294967296000000000 with (inject_Z 4294967296000000000); apply inject_le; lia).
  pose proof (rnd_near _ X0) as E. pose proof (rnd_nonneg (inject_Z ns)) as N. set (r := rnd (inject_Z ns)) in *. set (x := inject_Z ns) in *.
  apply Qabs_Qle_condition in E. destruct E as [E1 E2].
  assert (Y0 : 0 <= r / 1000000000) by (unfold Qdiv; change (/ 1000000000) with (1 # 1000000000); lra).
  pose proof (rnd_near _ Y0) as F. set (t := rnd (r / 1000000000)) in *. unfold Qdiv in *. change (/ 1000000000) with (1 # 1000000000) in *.
  apply Qabs_Qle_condition in F. destruct F as [F1 F2]. apply Qabs_Qle_condition. split; lra.
Qed.

Lemma minus_nonneg a b : b <= a -> minus a b = rnd (a - b).
Proof. intro H. unfold minus. rewrite (proj2 (Qle_bool_iff b a) H). reflexivity. Qed.

Lemma elapsed_lemma born resets now : this_century (last_start born resets) -> this_century now -> (last_start born resets <= now)%Z ->
  let e := timer_elapsed now (timer_run born resets) in
  0 <= e /\ Qabs (e - (inject_Z now - inject_Z (last_start born resets)) / 1000000000) <= 3 # 1000000.
Proof.
  intros A B L e. unfold e. rewrite run_last. set (a := last_start born resets) in *. unfold timer_elapsed.
  pose proof (seconds_mono a now A B L) as M. rewrite minus_nonneg by exact M. split; [apply rnd_nonneg|].
  pose proof (seconds_near a A) as EA. pose proof (seconds_near now B) as EB. destruct A as [A0 A1], B as [B0 B1].
  assert (XA : 0 <= inject_Z a) by (change 0 with (inject_Z 0); apply inject_le; exact A0).
  assert (XB : inject_Z now <= 4294967296000000000) by (change 4294967296000000000 with (inject_Z 4294967296000000000); apply inject_le; lia).
  set (p := seconds_double a) in *. set (q := seconds_double now) in *. set (x := inject_Z a) in *. set (y := inject_Z now) in *.
  unfold Qdiv in *. change (/ 1000000000) with (1 # 1000000000) in *.
  apply Qabs_Qle_condition in EA. apply Qabs_Qle_condition in EB. destruct EA as [A2 A3], EB as [B2 B3].
  assert (D : 0 <= q - p) by lra. pose proof (rnd_near _ D) as F. set (r := rnd (q - p)) in *. apply Qabs_Qle_condition in F. destruct F as [F1 F2].
  apply Qabs_Qle_condition. split; lra.
Qed.

Lemma later_lemma born resets now now' : this_century (last_start born resets) -> this_century now -> this_century now' -> (last_start born resets <= now <= now')%Z ->
  timer_elapsed now (timer_run born resets) <= timer_elapsed now' (timer_run born resets).
Proof.
  intros A B C [L M]. rewrite run_last. set (a := last_start born resets) in *. unfold timer_elapsed.
  pose proof (seconds_mono a now A B L) as P. pose proof (seconds_mono now now' B C M) as Q. rewrite !minus_nonneg by lra. apply rnd_mono. lra.
Qed.

Section Decorator.
Variables value exn state : Type.
Variable repr : value -> str + exn.
Notation decorated := (decorated value exn state repr).
Notation reprs := (reprs value exn repr).
Notation tuple_text := (tuple_text value exn repr).
Notation dict_text := (dict_text value exn repr).

Lemma reprs_ok l : (forall v, In v l -> exists t, repr v = inl t) -> exists ts, reprs l = inl ts.
Proof.
  induction l as [|v l IH]; intro H; [eexists; reflexivity|]. destruct (H v (or_introl eq_refl)) as [t E]. destruct IH as [ts F]; [intros u I; apply H; right; exact I|].
  cbn [PyTools_model.reprs]. rewrite E, F. eexists; reflexivity.
Qed.
Lemma tuple_ok l : (forall v, In v l -> exists t, repr v = inl t) -> exists t, tuple_text l = inl t.
Proof. intro H. destruct (reprs_ok l H) as [ts E]. unfold PyTools_model.tuple_text. rewrite E. destruct ts as [|t [|u ts]]; eexists; reflexivity. Qed.
Lemma dict_ok l : (forall k v, In (k, v) l -> exists t, repr v = inl t) -> exists t, dict_text l = inl t.
Proof.
  intro H. destruct (reprs_ok (map snd l)) as [ts E]; [intros v I; apply in_map_iff in I as ((k & u) & <- & I); exact (H k u I)|].
  unfold PyTools_model.dict_text. rewrite E. eexists; reflexivity.
Qed.

Lemma listed_comma ts : listed ts (comma ts).
Proof. induction ts as [|t [|t' ts] IH]; [constructor|constructor|]. change (comma (t :: t' :: ts)) with (t ++ s ", " ++ comma (t' :: ts)). constructor. exact IH. Qed.
Lemma reprs_each l ts : reprs l = inl ts -> Forall2 (fun v t => repr v = inl t) l ts.
Proof.
  revert ts. induction l as [|v l IH]; intros ts H; cbn [PyTools_model.reprs] in H; [injection H as <-; constructor|]. destruct (repr v) as [t|e] eqn:E; [|discriminate]. destruct (reprs l) as [us|e] eqn:F; [|discriminate].
  injection H as <-. constructor; [exact E|apply IH; reflexivity].
Qed.
Lemma tuple_lemma l a : tuple_text l = inl a -> exists ts, Forall2 (fun v t => repr v = inl t) l ts /\ tuple_reads ts a.
Proof.
  unfold PyTools_model.tuple_text. destruct (reprs l) as [ts|e] eqn:E; [|discriminate]. intro H. exists ts. split; [exact (reprs_each l ts E)|]. exists (comma ts). split; [apply listed_comma|].
  destruct ts as [|t [|u ts]]; apply (f_equal (fun x => match x with inl y => y | inr _ => [] end)) in H; subst a; split; intro L; first [reflexivity|cbn [length] in L; congruence|discriminate L].
Qed.
Lemma dict_lemma l a : dict_text l = inl a -> exists ts, Forall2 (fun kv t => repr (snd kv) = inl t) l ts /\ dict_reads (combine (map fst l) ts) a.
Proof.
  unfold PyTools_model.dict_text. destruct (reprs (map snd l)) as [ts|e] eqn:E; [|discriminate]. intro H. exists ts. split.
  - apply reprs_each in E. clear H. revert ts E. induction l as [|(k & v) l IH]; intros ts E; inversion E; subst; constructor; [assumption|apply IH; assumption].
  - apply (f_equal (fun x => match x with inl y => y | inr _ => [] end)) in H. subst a. eexists _, _. split; [|split; [apply listed_comma|reflexivity]].
    induction (combine (map fst l) ts) as [|kt r IH]; constructor; [reflexivity|exact IH].
Qed.
Lemma transparent_lemma f args kwargs w r w' ms : (forall v, In v args -> exists t, repr v = inl t) -> (forall k v, In (k, v) kwargs -> exists t, repr v = inl t) ->
  snd f args kwargs w = (r, w', ms) ->
  exists a k ms', snd (decorated f) args kwargs w = (r, w', called_text (fst f) a k :: ms ++ ms') /\ tuple_text args = inl a /\ dict_text kwargs = inl k /\
    ms' = match r with Returned _ => [finished_text (fst f)] | Raised _ => [] end.
Proof.
  intros A K E. destruct (tuple_ok args A) as [a Ea]. destruct (dict_ok kwargs K) as [k Ek]. exists a, k.
  destruct f as [name g]. unfold PyTools_model.decorated. cbn [snd fst] in *. rewrite Ea, Ek, E. destruct r as [v|e].
  - exists [finished_text name]. repeat split.
  - exists []. rewrite app_nil_r. repeat split.
Qed.

Lemma message_lemma f args kwargs w r w' ms : (forall v, In v args -> exists t, repr v = inl t) -> (forall k v, In (k, v) kwargs -> exists t, repr v = inl t) ->
  snd f args kwargs w = (r, w', ms) ->
  exists ts us a k, Forall2 (fun v t => repr v = inl t) args ts /\ Forall2 (fun kv u => repr (snd kv) = inl u) kwargs us /\ tuple_reads ts a /\ dict_reads (combine (map fst kwargs) us) k /\
    snd (decorated f) args kwargs w = (r, w', (s "Function <" ++ fst f ++ s "> called with arguments: <" ++ a ++ s ">, <" ++ k ++ s ">") :: ms ++ match r with Returned _ => [s "Function <" ++ fst f ++ s "> finished"] | Raised _ => [] end).
Proof.
  intros A K E. destruct (transparent_lemma f args kwargs w r w' ms A K E) as (a & k & ms' & D & Ea & Ek & M). destruct (tuple_lemma args a Ea) as (ts & T1 & T2). destruct (dict_lemma kwargs k Ek) as (us & U1 & U2).
  exists ts, us, a, k. split; [exact T1|]. split; [exact U1|]. split; [exact T2|]. split; [exact U2|]. rewrite D, M. reflexivity.
Qed.
Lemma nested_lemma f args kwargs w v w' ms : well_nested (snd (snd f args kwargs w)) -> snd (decorated f) args kwargs w = (Returned v, w', ms) -> well_nested ms.
Proof.
  destruct f as [name g]. unfold PyTools_model.decorated. cbn [snd fst]. destruct (tuple_text args) as [a|e]; [|intros _ X; discriminate X]. destruct (dict_text kwargs) as [k|e]; [|intros _ X; discriminate X].
  destruct (g args kwargs w) as [[[u|e] w0] ms0]; intros N X; [|discriminate X]. injection X as _ _ <-. apply wn_call. exact N.
Qed.
End Decorator.
