From Verif Require Import Str Str_proofs Cmake_model Cmake_spec Cmake_proofs CmakeXfail_model.

Lemma plain_arguments x : plain x -> arguments x = [x].
Proof.
  intros (N & _ & H). unfold arguments, elements. destruct (existsb (Ascii.eqb ";") x) eqn:E.
  - apply existsb_exists in E as (c & I & Q). apply Ascii.eqb_eq in Q. subst c. contradiction.
  - destruct x; [congruence|reflexivity].
Qed.
Lemma file_arguments lines : Forall (fun x => x = [] \/ plain x) lines -> arguments (file_strings lines) = filter nonempty lines.
Proof.
  intro F. destruct lines as [|l r]; [reflexivity|]. unfold arguments. rewrite lines_elements; [reflexivity| |discriminate].
  apply Forall_forall. intros x I. rewrite Forall_forall in F. destruct (F x I) as [-> |(_ & T & _)]; [repeat split; intros []|exact T].
Qed.
Lemma each_lemma lines label : Forall plain lines -> forall t,
  match set_each lines label t with
  | Some t' => (forall x, In x lines -> t x <> None) /\ (forall x, In x lines -> t' x = Some [label]) /\ (forall x, ~ In x lines -> t' x = t x)
  | None => exists x, In x lines /\ t x = None end.
Proof.
  induction lines as [|l r IH]; intros F t; cbn [set_each].
  - split; [intros x []|]. split; [intros x []|]. reflexivity.
  - inversion F as [|? ? P F']; subst. rewrite (plain_arguments l P). cbn [set_property]. destruct (t l) as [o|] eqn:E; [|exists l; split; [left; reflexivity|exact E]].
    specialize (IH F' (fun y => if str_eqb l y then Some [label] else t y)). destruct (set_each r label (fun y => if str_eqb l y then Some [label] else t y)) as [t'|].
    + destruct IH as (A & B & C). split; [|split].
      * intros x [<-|I]; [rewrite E; discriminate|]. specialize (A x I). destruct (str_eqb l x) eqn:Q; [apply str_eqb_eq in Q; subst x; rewrite E; discriminate|exact A].
      * intros x [<-|I]; [|exact (B x I)]. destruct (in_dec str_dec l r) as [I|N]; [exact (B l I)|]. rewrite (C l N), str_eqb_refl. reflexivity.
      * intros x N. rewrite C by (intro I; apply N; right; exact I). destruct (str_eqb l x) eqn:Q; [apply str_eqb_eq in Q; exfalso; apply N; left; exact Q|reflexivity].
    + destruct IH as (x & I & N). exists x. split; [right; exact I|]. destruct (str_eqb l x); [discriminate|exact N].
Qed.
Lemma label_lemma lines label t : Forall (fun x => x = [] \/ plain x) lines ->
  match add_label (Some lines) label t with
  | Some t' => (forall x, x <> [] -> In x lines -> t x <> None) /\ (forall x, x <> [] -> In x lines -> t' x = Some [label]) /\ (forall x, x = [] \/ ~ In x lines -> t' x = t x)
  | None => exists x, x <> [] /\ In x lines /\ t x = None end.
Proof.
  intro F. unfold add_label. rewrite (file_arguments lines F).
  assert (G : forall x, In x (filter nonempty lines) <-> x <> [] /\ In x lines). { intro x. rewrite filter_In. destruct x; cbn [nonempty]; intuition congruence. }
  assert (P : Forall plain (filter nonempty lines)). { apply Forall_forall. intros x I. apply G in I as [N I]. rewrite Forall_forall in F. destruct (F x I); [contradiction|assumption]. }
  pose proof (each_lemma (filter nonempty lines) label P t) as L. destruct (set_each (filter nonempty lines) label t) as [t'|].
  - destruct L as (A & B & C). split; [intros x N I; apply A, G; split; assumption|]. split; [intros x N I; apply B, G; split; assumption|]. intros x H. apply C. intro I. apply G in I as [N I]. destruct H; contradiction.
  - destruct L as (x & I & N). apply G in I as [K I]. exists x. split; [exact K|split; [exact I|exact N]].
Qed.
