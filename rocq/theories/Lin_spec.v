(** What it means that the calls of several threads behave as if made one at a time
    (linearizability), by the events of an execution, the newest first: a call is made,
    takes effect at one moment between its beginning and its end, and returns. *)
From Coq Require Import List.
Import ListNotations.

Section Lin.
Variables S Op Res : Type.

Inductive lev :=
| LCall (t : nat) (o : Op)             (* thread t begins the call o *)
| LDo (t : nat) (o : Op) (r : Res)     (* the call takes effect; it will return r *)
| LRet (t : nat) (o : Op) (r : Res).   (* the call o returns r *)

Definition by_thread (e : lev) : nat := match e with LCall t _ | LDo t _ _ | LRet t _ _ => t end.

Inductive phase := NotCalled | Called (o : Op) | Done (o : Op) (r : Res).

(** thread t makes its calls one after another; each takes effect exactly once, after it is
    made and before it returns, and returns the result it had then *)
Inductive thread_phase (t : nat) : list lev -> phase -> Prop :=
| ph_nil : thread_phase t [] NotCalled
| ph_other e evs ph : by_thread e <> t -> thread_phase t evs ph -> thread_phase t (e :: evs) ph
| ph_call o evs : thread_phase t evs NotCalled -> thread_phase t (LCall t o :: evs) (Called o)
| ph_do o r evs : thread_phase t evs (Called o) -> thread_phase t (LDo t o r :: evs) (Done o r)
| ph_ret o r evs : thread_phase t evs (Done o r) -> thread_phase t (LRet t o r :: evs) NotCalled.

(** the effects, in the order in which they happen, are those of the sequential object [seq]
    that begins in the state [s0] *)
Variable seq : S -> Op -> S -> Res -> Prop.
Inductive sequential (s0 : S) : list lev -> S -> Prop :=
| seq_nil : sequential s0 [] s0
| seq_call t o evs s : sequential s0 evs s -> sequential s0 (LCall t o :: evs) s
| seq_do t o r evs s s' : sequential s0 evs s -> seq s o s' r -> sequential s0 (LDo t o r :: evs) s'
| seq_ret t o r evs s : sequential s0 evs s -> sequential s0 (LRet t o r :: evs) s.

Definition linearizable (s0 : S) (evs : list lev) : Prop :=
  (exists s, sequential s0 evs s) /\ forall t, exists ph, thread_phase t evs ph.
End Lin.
Arguments LCall {Op Res} t o.
Arguments LDo {Op Res} t o r.
Arguments LRet {Op Res} t o r.
Arguments NotCalled {Op Res}.
Arguments Called {Op Res} o.
Arguments Done {Op Res} o r.
Arguments by_thread {Op Res} e.
Arguments thread_phase {Op Res} t _ _.
Arguments sequential {S Op Res} seq s0 _ _.
Arguments linearizable {S Op Res} seq s0 evs.
