(** Model of cpp_utils/include/cpp_utils/pool/impl/UnboundedPool.ipp and of the configuration,
    pool/IPool.hpp:25-42.

    An element is known by its address: [new_element_] yields the address [fresh], not used
    before.  [contents] is the memory the addresses point to.  [T] is the type of the elements,
    [made] what new_element_ makes and [cleared] what reset_element_ does; a child class may
    override both, IPool.ipp:45-63.
    [elements] is the vector elements_ with its back first.  The messages of the log are not modelled.
    The class has no mutex and is for one thread, UnboundedPool.hpp:39. *)
From Coq Require Export NArith.
From Coq Require Export List.
From Verif Require Export Outcome.
Export ListNotations.

Section ObjPool.
Variable T : Type.
Variable made : T.
Variable cleared : T -> T.

(** pool/IPool.hpp:25-42; all of them unsigned int.  The maximum is read nowhere. *)
Record config := { initial_size : N; maximum_size : N; batch_size : N }.

(** Who allocates: the functions of IPool or those of a child class that overrides them *)
Inductive class := Base | Child.

Record pool := { elements : list nat; reserved : N; fresh : nat; contents : nat -> T; conf : config; kind : class }.

(** an unsigned int *)
Definition uint (n : N) : N := N.modulo n (2 ^ 32).

Definition write (h : nat -> T) (e : nat) (v : T) : nat -> T := fun e' => if Nat.eqb e' e then v else h e'.

(** UnboundedPool.ipp:112-116: one round of the loop *)
Definition one_more (p : pool) : pool :=
  {| elements := fresh p :: elements p; reserved := reserved p; fresh := S (fresh p);
     contents := write (contents p) (fresh p) made; conf := conf p; kind := kind p |}.
(** UnboundedPool.ipp:108-122 *)
Definition augment (p : pool) (n : N) : pool :=
  let p' := Nat.iter (N.to_nat n) one_more p in
  {| elements := elements p'; reserved := uint (reserved p' + n); fresh := fresh p'; contents := contents p'; conf := conf p'; kind := kind p' |}.

(** UnboundedPool.ipp:30-44 and, in a child class, 124-128.  Without a child class nobody calls
    initialize_vector_, and create_pool, IPool.ipp:34-43, does not either (it does not even
    compile, since UnboundedPool inherits IPool privately, UnboundedPool.hpp:45). *)
Definition construct (k : class) (c : config) (garbage : nat -> T) : outcome pool :=
  if N.ltb (batch_size c) 1 then Throw Initialization
  else let p := {| elements := []; reserved := 0; fresh := 0; contents := garbage; conf := c; kind := k |} in
       Ret (match k with Base => p | Child => augment p (initial_size c) end).

(** UnboundedPool.ipp:64-81 *)
Definition loan (p : pool) : outcome (nat * pool) :=
  let p' := match elements p with [] => augment p (batch_size (conf p)) | _ => p end in
  match elements p' with
  | [] => UB                (* back() of an empty vector *)
  | e :: es => Ret (e, {| elements := es; reserved := reserved p'; fresh := fresh p'; contents := contents p'; conf := conf p'; kind := kind p' |})
  end.

(** UnboundedPool.ipp:83-100 *)
Definition return_loan (p : pool) (e : nat) : outcome pool :=
  if N.eqb (reserved p) (N.of_nat (length (elements p))) then Throw Inconsistency
  else Ret {| elements := e :: elements p; reserved := reserved p; fresh := fresh p;
              contents := write (contents p) e (cleared (contents p e)); conf := conf p; kind := kind p |}.

(** A user changes an element *)
Definition use (p : pool) (e : nat) (v : T) : pool :=
  {| elements := elements p; reserved := reserved p; fresh := fresh p; contents := write (contents p) e v; conf := conf p; kind := kind p |}.

(** UnboundedPool.ipp:46-62: the elements deleted, in order, and by which function.  In the destructor
    of UnboundedPool the child part is gone, so the call is to the function of IPool. *)
Definition destroy (p : pool) : list (nat * class) := map (fun e => (e, Base)) (rev (elements p)).
End ObjPool.
Arguments elements {T} p.
Arguments reserved {T} p.
Arguments fresh {T} p.
Arguments contents {T} p.
Arguments conf {T} p.
Arguments kind {T} p.
Arguments write {T} h e v.
Arguments loan {T} made p.
Arguments return_loan {T} cleared p e.
Arguments use {T} p e v.
Arguments destroy {T} p.
Arguments construct {T} made k c garbage.
Arguments one_more {T} made p.
Arguments augment {T} made p n.
