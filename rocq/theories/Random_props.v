(** C49: random numbers. *)
From Verif Require Import Random_model Random_spec Random_proofs.
Local Open Scope N_scope.

(** RandomManager: calls one after another return what the specification says *)
Theorem C49_manager : forall G mt_seed mt_draw mt_default sd os,
  random_results G mt_seed mt_draw (sd, 0%nat) os (manager_calls G mt_seed mt_draw (new_manager G mt_seed mt_default sd) os).
Proof. exact manager_results_lemma. Qed.
Print Assumptions C49_manager.

(** a generator for the examples *)
Definition toy_seed (sd : N) : N := sd.
Definition toy_draw (g : N) : N * N := ((g * 5 + 3) mod 64, g mod 16).

Example C49_manager_example : manager_calls N toy_seed toy_draw (new_manager N toy_seed 0 1)
  [SequenceRand; SeededRand 9; SequenceRand; PureRand 6; SequenceRand; SetSeed 1; SequenceRand; SequenceRand] =
  [Some 1; Some 9; Some 8; Some 6; Some 11; None; Some 1; Some 8].
Proof. reflexivity. Qed.

(** TSafeRandomManager: for every interleaving the calls are as if made one after another *)
Theorem C49_linear : forall G mt_seed mt_draw mt_default sd n ls s,
  rsteps G mt_seed mt_draw (rinit G mt_seed mt_default sd n) ls = Some s ->
  linearizable (random_spec G mt_seed mt_draw) (sd, 0%nat) (revents s).
Proof. exact random_linear_lemma. Qed.
Print Assumptions C49_linear.

Example C49_linear_nonvacuous : exists s,
  rsteps N toy_seed toy_draw (rinit N toy_seed 0 1 2) [RCall 0 SequenceRand; RCall 1 (SeededRand 9); RRun 0; RRun 1; RRun 1; RRun 0; RRun 1; RRun 0; RRun 1;
    RRun 0; RRun 1; RRun 1; RCall 1 SequenceRand; RRun 1; RRun 1; RRun 1; RRun 1; RRun 1; RRun 0]%nat = Some s /\
  revents s = [LRet 0 SequenceRand (Some 1); LRet 1 SequenceRand (Some 8); LDo 1 SequenceRand (Some 8); LCall 1 SequenceRand;
    LRet 1 (SeededRand 9) (Some 9); LDo 1 (SeededRand 9) (Some 9); LDo 0 SequenceRand (Some 1); LCall 1 (SeededRand 9); LCall 0 SequenceRand].
Proof. eexists. split; [vm_compute; reflexivity|]. reflexivity. Qed.

(** no two threads use a generator at the same time *)
Theorem C49_exclusive : forall G mt_seed mt_draw mt_default sd n ls s,
  rsteps G mt_seed mt_draw (rinit G mt_seed mt_default sd n) ls = Some s ->
  forall x t u p q, nth_error (rpcs s) t = Some p -> nth_error (rpcs s) u = Some q -> uses x p = true -> uses x q = true -> t = u.
Proof. exact exclusive_lemma. Qed.
Print Assumptions C49_exclusive.

Example C49_exclusive_nonvacuous : exists s,
  rsteps N toy_seed toy_draw (rinit N toy_seed 0 1 3) [RCall 0 SequenceRand; RCall 1 (SeededRand 9); RCall 2 (SetSeed 7); RRun 0; RRun 1]%nat = Some s /\
  rpcs s = [RHeld SequenceRand; RHeld (SeededRand 9); RLock (SetSeed 7)] /\ rstep N toy_seed toy_draw s (RRun 2) = None.
Proof. eexists. split; [vm_compute; reflexivity|]. split; reflexivity. Qed.

(** as long as a call is in progress, some thread can go on: there is no deadlock *)
Theorem C49_progress : forall G mt_seed mt_draw mt_default sd n ls s,
  rsteps G mt_seed mt_draw (rinit G mt_seed mt_default sd n) ls = Some s ->
  forall t p, nth_error (rpcs s) t = Some p -> p <> RIdle -> exists u s', rstep G mt_seed mt_draw s (RRun u) = Some s'.
Proof. exact random_progress_lemma. Qed.
Print Assumptions C49_progress.

Example C49_progress_nonvacuous : exists s s',
  rsteps N toy_seed toy_draw (rinit N toy_seed 0 1 3) [RCall 0 SequenceRand; RCall 2 (SetSeed 7); RRun 0]%nat = Some s /\
  nth_error (rpcs s) 2 = Some (RLock (SetSeed 7)) /\ rstep N toy_seed toy_draw s (RRun 2) = None /\ rstep N toy_seed toy_draw s (RRun 0) = Some s'.
Proof. eexists. eexists. split; [vm_compute; reflexivity|]. split; [reflexivity|]. split; vm_compute; reflexivity. Qed.
