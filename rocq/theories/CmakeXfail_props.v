(** C163: the labels of tests that are expected to fail. *)
From Verif Require Import Str Str_proofs Cmake_model Cmake_spec Cmake_proofs CmakeXfail_model CmakeXfail_proofs.

(** C163. The tests that the file lists have the label, and the others are left alone. Partial: a test that is listed has lost its other labels. *)
Theorem C163_xfail_partial : forall lines t t', Forall (fun x => x = [] \/ plain x) lines -> add_xfail_label (Some lines) t = Some t' ->
  (forall x, x <> [] -> In x lines -> exists l, t' x = Some l /\ In (s "xfail") l) /\ (forall x, x = [] \/ ~ In x lines -> t' x = t x).
Proof.
  intros lines t t' F R. pose proof (label_lemma lines (s "xfail") t F) as L. unfold add_xfail_label in R. rewrite R in L. destruct L as (_ & B & C). split; [intros x N I; exists [s "xfail"]; split; [exact (B x N I)|left; reflexivity]|exact C].
Qed.
Print Assumptions C163_xfail_partial.
Theorem C163_xtsan_partial : forall lines t t', Forall (fun x => x = [] \/ plain x) lines -> add_xtsan_label (Some lines) t = Some t' ->
  (forall x, x <> [] -> In x lines -> exists l, t' x = Some l /\ In (s "xtsan") l) /\ (forall x, x = [] \/ ~ In x lines -> t' x = t x).
Proof.
  intros lines t t' F R. pose proof (label_lemma lines (s "xtsan") t F) as L. unfold add_xtsan_label in R. rewrite R in L. destruct L as (_ & B & C). split; [intros x N I; exists [s "xtsan"]; split; [exact (B x N I)|left; reflexivity]|exact C].
Qed.
Print Assumptions C163_xtsan_partial.
(** C163. It is an error exactly if the file lists a test that does not exist. *)
Theorem C163_errors : forall lines t, Forall (fun x => x = [] \/ plain x) lines ->
  (add_xfail_label (Some lines) t = None <-> exists x, x <> [] /\ In x lines /\ t x = None) /\ (add_xtsan_label (Some lines) t = None <-> exists x, x <> [] /\ In x lines /\ t x = None).
Proof.
  assert (G : forall label lines t, Forall (fun x => x = [] \/ plain x) lines -> (add_label (Some lines) label t = None <-> exists x, x <> [] /\ In x lines /\ t x = None)).
  { intros label lines t F. pose proof (label_lemma lines label t F) as L. destruct (add_label (Some lines) label t) as [t'|]; [|split; [intros _; exact L|reflexivity]]. split; [discriminate|]. intros (x & N & I & E). destruct L as (A & _). destruct (A x N I E). }
  intros lines t F. split; apply G; exact F.
Qed.
Print Assumptions C163_errors.
(** C163. Without the file nothing changes, nor, for the list of Windows, elsewhere; on Windows this list is like the other. *)
Theorem C163_no_file : forall t, add_xfail_label None t = Some t /\ add_xtsan_label None t = Some t /\ (forall f, add_windows_xfail_label false f t = Some t) /\ forall f, add_windows_xfail_label true f t = add_xfail_label f t.
Proof. intro t. repeat split. Qed.
Print Assumptions C163_no_file.

Definition two_tests : tests := fun x => if str_eqb x (s "queue") then Some [s "unit"] else if str_eqb x (s "pool") then Some [] else None.
Example C163_nonvacuous : Forall (fun x => x = [] \/ plain x) [s "queue"; []] /\
  match add_xfail_label (Some [s "queue"; []]) two_tests with Some t => t (s "queue") = Some [s "xfail"] /\ t (s "pool") = Some [] | None => False end /\ add_xfail_label (Some [s "queue"; s "pools"]) two_tests = None.
Proof.
  split; [|vm_compute; repeat split; reflexivity]. apply Forall_cons; [right; split; [discriminate|split; [split; [|split]|]]|apply Forall_cons; [left; reflexivity|apply Forall_nil]]; vm_compute; intuition discriminate.
Qed.
(** C163. Refuted: a test that both files list has both labels. *)
Theorem C163_both_refuted : exists t t' t'', add_xfail_label (Some [s "queue"]) t = Some t' /\ add_xtsan_label (Some [s "queue"]) t' = Some t'' /\ t'' (s "queue") = Some [s "xtsan"].
Proof.
  destruct (add_xfail_label (Some [s "queue"]) two_tests) as [t'|] eqn:E; [|vm_compute in E; discriminate E]. destruct (add_xtsan_label (Some [s "queue"]) t') as [t''|] eqn:H.
  - exists two_tests, t', t''. split; [exact E|]. split; [exact H|].
    assert (V : match add_xfail_label (Some [s "queue"]) two_tests with Some t' => match add_xtsan_label (Some [s "queue"]) t' with Some t'' => t'' (s "queue") | None => None end | None => None end = Some [s "xtsan"]) by (vm_compute; reflexivity).
    rewrite E, H in V. exact V.
  - exfalso. assert (V : match add_xfail_label (Some [s "queue"]) two_tests with Some t' => match add_xtsan_label (Some [s "queue"]) t' with Some _ => true | None => false end | None => false end = true) by (vm_compute; reflexivity). rewrite E, H in V. discriminate V.
Qed.
Print Assumptions C163_both_refuted.
(** C163. Refuted: a test keeps the labels it has. *)
Theorem C163_kept_refuted : exists t t', t (s "queue") = Some [s "unit"] /\ add_xfail_label (Some [s "queue"]) t = Some t' /\ t' (s "queue") = Some [s "xfail"].
Proof.
  destruct (add_xfail_label (Some [s "queue"]) two_tests) as [t'|] eqn:E; [|vm_compute in E; discriminate E]. exists two_tests, t'. split; [vm_compute; reflexivity|]. split; [exact E|].
  assert (V : match add_xfail_label (Some [s "queue"]) two_tests with Some t' => t' (s "queue") | None => None end = Some [s "xfail"]) by (vm_compute; reflexivity). rewrite E in V. exact V.
Qed.
Print Assumptions C163_kept_refuted.
