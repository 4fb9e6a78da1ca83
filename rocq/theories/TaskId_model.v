(** Model of cpp_utils/src/cpp/thread_pool/task/TaskId.cpp: any number of threads call
    [new_unique_task_id].  The initialisation of the static variable is the constant 0 and
    needs no step of its own. *)
From Coq Require Export NArith.
From Verif Require Export Threads Lin_spec.
Local Open Scope N_scope.

(** TaskId is unsigned int, TaskId.hpp:29 *)
Definition task_id_values : N := 2 ^ 32.

(** there is only one call *)
Inductive id_op := NewId.
Inductive id_pc := IdIdle | IdCalled | IdDone (r : N).

Record id_state := { counter : N; id_pcs : list id_pc; id_events : list (lev id_op N) }.

Definition id_init (n : nat) : id_state := {| counter := 0; id_pcs := repeat IdIdle n; id_events := [] |}.

(** the next step of thread [t] *)
Definition id_step (s : id_state) (t : nat) : option id_state :=
  match nth_error (id_pcs s) t with
  | Some IdIdle => Some {| counter := counter s; id_pcs := upd (id_pcs s) t IdCalled; id_events := LCall t NewId :: id_events s |}
  (** TaskId.cpp:31: the value is read and the next one written in one indivisible operation *)
  | Some IdCalled => Some {| counter := (counter s + 1) mod task_id_values; id_pcs := upd (id_pcs s) t (IdDone (counter s));
                             id_events := LDo t NewId (counter s) :: id_events s |}
  | Some (IdDone r) => Some {| counter := counter s; id_pcs := upd (id_pcs s) t IdIdle; id_events := LRet t NewId r :: id_events s |}
  | None => None
  end.

Fixpoint id_run (s : id_state) (ts : list nat) : option id_state :=
  match ts with
  | [] => Some s
  | t :: ts' => match id_step s t with Some s' => id_run s' ts' | None => None end
  end.
