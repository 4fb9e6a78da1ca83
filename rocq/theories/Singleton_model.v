(** Model of cpp_utils/include/cpp_utils/types/impl/SafeInitializableSingleton.ipp, Singleton.ipp
    and InitializableSingleton.ipp.

    An instance is its address, a number never used before, and the arguments it was
    constructed with ([None]: the default constructor).  Construction may fail with an
    exception: [constructible] says for which arguments it does not.  [Singleton] is the
    static variable of a function: the standard guards its construction as a mutex does, so
    its calls are those of [Get true] on an object of its own.  The destruction of the
    static variables at the end of the process is not modelled. *)
From Verif Require Export Threads Lin_spec.

Section Model.
Variable A : Type.                             (* arguments of constructors *)
Variable constructible : option A -> bool.

Record instance := { address : nat; made_with : option A }.

Inductive single_op :=
| Initialize (a : A)       (* initialize(args...) *)
| Get (create : bool).     (* get_instance, get_shared_instance *)
Inductive single_res :=
| RBool (b : bool)
| RInstance (i : option instance)   (* None is nullptr *)
| RThrown                           (* the constructor's exception leaves initialize *)
| RTerminate.                       (* it cannot leave get_shared_instance, noexcept: std::terminate *)

Inductive single_pc :=
| SIdle
| SLock (o : single_op)                     (* before :36, :54 *)
| STest (o : single_op)                     (* mutex taken, before :56, :71 *)
| SMake (o : single_op)                     (* the pointer was found null, before :73 *)
| SDone (o : single_op) (r : single_res)    (* before releasing the mutex *)
| SRet (o : single_op) (r : single_res).    (* before returning *)

Record sstate := {
  the_ptr : option instance; mtx : option nat; next_address : nat; terminated : bool;
  spcs : list single_pc; sevents : list (lev single_op single_res) }.

Definition sinit (n : nat) : sstate :=
  {| the_ptr := None; mtx := None; next_address := 0; terminated := false; spcs := repeat SIdle n; sevents := [] |}.

Definition sgo (s : sstate) (t : nat) (m : option nat) (p : single_pc) : sstate :=
  {| the_ptr := the_ptr s; mtx := m; next_address := next_address s; terminated := terminated s; spcs := upd (spcs s) t p; sevents := sevents s |}.
Definition semit (s : sstate) (e : lev single_op single_res) : sstate :=
  {| the_ptr := the_ptr s; mtx := mtx s; next_address := next_address s; terminated := terminated s; spcs := spcs s; sevents := e :: sevents s |}.
Definition sstore (s : sstate) (i : instance) : sstate :=
  {| the_ptr := Some i; mtx := mtx s; next_address := S (next_address s); terminated := terminated s; spcs := spcs s; sevents := sevents s |}.
Definition sterminate (s : sstate) : sstate :=
  {| the_ptr := the_ptr s; mtx := mtx s; next_address := next_address s; terminated := true; spcs := spcs s; sevents := sevents s |}.

(** the effect of a call and its result, known *)
Definition seffect (s : sstate) (t : nat) (o : single_op) (r : single_res) : sstate := semit (sgo s t (mtx s) (SDone o r)) (LDo t o r).

Definition scall (s : sstate) (t : nat) (o : single_op) : option sstate :=
  if terminated s then None else
  match nth_error (spcs s) t with
  | Some SIdle => Some (semit (sgo s t (mtx s) (SLock o)) (LCall t o))
  | _ => None
  end.

Definition arguments (o : single_op) : option A := match o with Initialize a => Some a | Get _ => None end.

(** the next step of thread [t] *)
Definition srun (s : sstate) (t : nat) : option sstate :=
  if terminated s then None else
  match nth_error (spcs s) t with
  | Some (SLock o) => match mtx s with None => Some (sgo s t (Some t) (STest o)) | Some _ => None end  (* :36, :54 *)
  | Some (STest o) =>
      match o, the_ptr s with
      | Get create, Some i => Some (seffect s t o (RInstance (Some i)))                            (* :56-59 *)
      | Get create, None => if negb create then Some (seffect s t o (RInstance None)) else Some (sgo s t (mtx s) (SMake o))  (* :56-63 *)
      | Initialize a, Some i => Some (seffect s t o (RBool false))                                 (* :71, :78 *)
      | Initialize a, None => Some (sgo s t (mtx s) (SMake o))
      end
  | Some (SMake o) =>                                                                              (* :73-74 *)
      if constructible (arguments o) then
        let i := {| address := next_address s; made_with := arguments o |} in
        Some (seffect (sstore s i) t o (match o with Initialize _ => RBool true | Get _ => RInstance (Some i) end))
      else match o with
           | Initialize _ => Some (seffect s t o RThrown)
           | Get _ => Some (sterminate (seffect s t o RTerminate))
           end
  | Some (SDone o r) => Some (sgo s t None (SRet o r))
  | Some (SRet o r) => Some (semit (sgo s t (mtx s) SIdle) (LRet t o r))
  | _ => None
  end.

Inductive slabel := SCall (t : nat) (o : single_op) | SRun (t : nat).
Definition sstep (s : sstate) (l : slabel) : option sstate := match l with SCall t o => scall s t o | SRun t => srun s t end.
Fixpoint ssteps (s : sstate) (ls : list slabel) : option sstate :=
  match ls with
  | [] => Some s
  | l :: ls' => match sstep s l with Some s' => ssteps s' ls' | None => None end
  end.

(** InitializableSingleton.ipp, one thread.  [init_shared]: the instances held by shared
    pointers that [get_shared_instance] has returned. *)
Record init_single := { init_ptr : option nat; init_next : nat; init_shared : list nat }.
Definition init_new : init_single := {| init_ptr := None; init_next := 0; init_shared := [] |}.
(** initialize, :28-35: the former instance is released *)
Definition init_initialize (x : init_single) : init_single :=
  {| init_ptr := Some (init_next x); init_next := S (init_next x); init_shared := init_shared x |}.
(** get_instance, :37-41 *)
Definition init_get (x : init_single) : option nat := init_ptr x.
(** get_shared_instance, :43-47 *)
Definition init_get_shared (x : init_single) : option nat * init_single :=
  (init_ptr x, {| init_ptr := init_ptr x; init_next := init_next x;
     init_shared := match init_ptr x with Some i => i :: init_shared x | None => init_shared x end |}).
(** the instance exists: something still refers to it *)
Definition init_alive (x : init_single) (i : nat) : Prop := init_ptr x = Some i \/ In i (init_shared x).
End Model.
Arguments Initialize {A} a. Arguments Get {A} create.
Arguments RBool {A} b. Arguments RInstance {A} i. Arguments RThrown {A}. Arguments RTerminate {A}.
Arguments SIdle {A}. Arguments SLock {A} o. Arguments STest {A} o. Arguments SMake {A} o. Arguments SDone {A} o r. Arguments SRet {A} o r.
Arguments the_ptr {A} s. Arguments mtx {A} s. Arguments next_address {A} s. Arguments terminated {A} s. Arguments spcs {A} s. Arguments sevents {A} s.
Arguments address {A} i. Arguments made_with {A} i. Arguments SCall {A} t o. Arguments SRun {A} t.
