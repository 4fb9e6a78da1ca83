(** Theorems of C151. *)
From Verif Require Import CmakeWin_model CmakeWin_spec CmakeWin_proofs.

(** C151. Whatever the targets and the environment, the path of a target is the directories of the libraries that it depends on through libraries with files, each once, followed by the
    directories of the environment, each once: whatever is missing is reached through interface libraries. *)
Theorem C151_path_partial : forall fuel g env t r, win32_path fuel g env t = Some r ->
  exists a b, r = map Target a ++ map Environment b /\ NoDup a /\ NoDup b /\ (forall l, In l a <-> depends_files g t l) /\ (forall d, In d b <-> In d env).
Proof. exact path_lemma. Qed.
Print Assumptions C151_path_partial.
(** C151. So it is those of all the libraries that it depends on if interface libraries are linked to nothing. *)
Theorem C151_all_partial : forall fuel g env t r, (forall i j, interface g i <> Some false -> In j (links g i) -> False) -> win32_path fuel g env t = Some r ->
  forall l, In (Target l) r <-> depends g t l /\ library g l.
Proof. exact all_lemma. Qed.
Print Assumptions C151_all_partial.
(** C151. There is a path if no library depends on itself. *)
Theorem C151_returns_partial : forall g env, acyclic g -> forall t, exists fuel r, forall more, win32_path (fuel + more) g env t = Some r.
Proof. exact returns_lemma. Qed.
Print Assumptions C151_returns_partial.

Definition diamond : targets :=
  {| interface := fun l => if str_eqb l (s "pthread") then None else Some false;
     links := fun t => if str_eqb t (s "test") then [s "ddspipe"; s "core"; s "pthread"] else if str_eqb t (s "ddspipe") then [s "core"] else [] |}.
Example C151_path_nonvacuous : win32_path 3 diamond [s "C:/Windows"; s "C:/Windows"] (s "test") = Some [Target (s "core"); Target (s "ddspipe"); Environment (s "C:/Windows")].
Proof. vm_compute. reflexivity. Qed.
Example C151_all_nonvacuous : (forall i j, interface diamond i <> Some false -> In j (links diamond i) -> False) /\ acyclic diamond.
Proof.
  split.
  - intros i j N I. unfold diamond in *. cbn [interface links] in *. destruct (str_eqb i (s "pthread")) eqn:E; [|congruence]. apply Str_proofs.str_eqb_eq in E. subst i. destruct I.
  - exists (fun t => if str_eqb t (s "test") then 2 else if str_eqb t (s "ddspipe") then 1 else 0). intros t l I K. unfold diamond in *. cbn [interface links] in *.
    destruct (str_eqb t (s "test")); [destruct I as [<- |[<- |[<- |[]]]]; [| |discriminate K]; vm_compute; auto|]. destruct (str_eqb t (s "ddspipe")); [|destruct I]. destruct I as [<- |[]]. vm_compute. auto.
Qed.

(** C151. Refuted: libraries reached through interface libraries are not in the path. *)
Theorem C151_interface_refuted : exists g t l, acyclic g /\ depends g t l /\ library g l /\ forall fuel env r, win32_path fuel g env t = Some r -> ~ In (Target l) r.
Proof. exact interface_refute. Qed.
Print Assumptions C151_interface_refuted.
(** C151. Refuted: with libraries that depend on each other the function calls itself without end. *)
Theorem C151_cycle_refuted : exists g t, forall fuel env, win32_path fuel g env t = None.
Proof. exact cycle_refute. Qed.
Print Assumptions C151_cycle_refuted.
