(** Theorems of C154. *)
From Coq Require Import NArith List Lia.
From Verif Require Import Consumer_model Consumer_spec ConsumerRest_spec ConsumerRest_proofs.
Import ListNotations.

(** C154. Whatever the calls and the schedule, when no thread can go on, a thread is inside consume only if the handler is enabled and all that was produced has been consumed. *)
Theorem C154_consume : forall (T : Type) en n (s : cstate T) t, bounded (cinit 0%N en n) s -> at_rest s -> consuming s t -> enabled (handler s) = true /\ consumed s = produced s.
Proof. exact (fun T => @consume_lemma T). Qed.
Print Assumptions C154_consume.
(** C154. No thread is then inside produce. *)
Theorem C154_produce : forall (T : Type) v en n (s : cstate T) t, creachable (cinit v en n) s -> at_rest s -> ~ producing s t.
Proof. exact (fun T => @produce_lemma T). Qed.
Print Assumptions C154_produce.
(** C154. And inside any other operation there are only threads that wait in wait_all_consumed, while something has not been consumed. *)
Theorem C154_others : forall (T : Type) en n (s : cstate T) t, bounded (cinit 0%N en n) s -> at_rest s -> elsewhere s t -> awaits_all s t /\ consumed s <> produced s.
Proof. exact (fun T => @elsewhere_lemma T). Qed.
Print Assumptions C154_others.
(** C154. Threads that only go on with their calls come to that after a number of steps that the schedule cannot change. *)
Theorem C154_ends : forall (T : Type) v en n (s : cstate T), simply (cinit v en n) s -> exists k, forall ls s', Forall goes_on ls -> csteps s ls = Some s' -> length ls <= k.
Proof. exact (fun T => @ends_lemma T). Qed.
Print Assumptions C154_ends.

(** two threads: the first calls consume and sleeps, the second produces 7, which the first gets, and consume is called again *)
Definition once : list (clabel nat) :=
  [CCall 0 (Consume 0); CRun 0 0; CRun 0 0; CRun 0 0; CCall 1 (Produce 7); CQueue 1; CRun 1 0] ++ repeat (CRun 0 0) 5 ++ repeat (CQueue 0) 6 ++ [CCall 0 (Consume 0); CRun 0 0; CRun 0 0; CRun 0 0].
Ltac rest := intros l [(t & pick & ->)|(t & ->)]; destruct t as [|[|t]]; try reflexivity; cbn; destruct t; reflexivity.
Example C154_consume_nonvacuous : exists s, csteps (cinit 0%N true 2) once = Some s /\ consumed s = [7] /\ consuming s 0 /\ at_rest s.
Proof. eexists. split; [vm_compute; reflexivity|]. split; [reflexivity|]. split; [eexists; split; [reflexivity|exact I]|]. rest. Qed.
(** the second waits until 7 is consumed *)
Example C154_others_nonvacuous : exists s, csteps (cinit 0%N true 2) [CCall 0 (Produce 7); CQueue 0; CRun 0 0; CCall 1 (WaitAllConsumed 0); CRun 1 0; CRun 1 0; CRun 1 0] = Some s /\ elsewhere s 1 /\ at_rest s /\ produced s = [7] /\ consumed s = [].
Proof. eexists. split; [vm_compute; reflexivity|]. split; [reflexivity|]. split; [rest|]. split; reflexivity. Qed.
Example C154_ends_nonvacuous : exists s, csteps (cinit 0%N true 2) [CCall 0 (Consume 0); CRun 0 0; CRun 0 0; CRun 0 0; CCall 1 (Switch Kdisable)] = Some s /\ exists s', csteps s ([CRun 1 0; CRun 1 0; CRun 1 0; CRun 1 0] ++ repeat (CRun 0 0) 5) = Some s' /\ results s' = [RThrow 0 Disabled] /\ @at_rest nat s'.
Proof. eexists. split; [vm_compute; reflexivity|]. eexists. split; [vm_compute; reflexivity|]. split; [reflexivity|]. rest. Qed.
