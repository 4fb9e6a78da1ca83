(** Model of cpp_utils/src/cpp/math/random/RandomManager.cpp and TSafeRandomManager.cpp.

    [std::mt19937] is any generator: a state made from a seed, and a function that draws a
    number and changes the state.  [std::random_device] is any source of numbers, given with
    each call.  A generator's state is written in one step; drawing reads the state in one
    step and writes it in another. *)
From Coq Require Export NArith.
From Verif Require Export Threads Lin_spec.

Section Model.
Variable G : Type.                 (* state of std::mt19937 *)
Variable mt_seed : N -> G.         (* its constructor from a seed, and its method seed *)
Variable mt_draw : G -> G * N.     (* its operator () *)
Variable mt_default : G.           (* its default constructor *)

Inductive rand_op :=
| PureRand (v : N)      (* v is what the device gives *)
| SequenceRand
| SetSeed (sd : N)
| SeededRand (sd : N).

(** RandomManager: one thread *)
Record manager := { std_gen : G; seed_gen : G }.
(** RandomManager.cpp:27-32 *)
Definition new_manager (original_seed : N) : manager := {| std_gen := mt_seed original_seed; seed_gen := mt_default |}.
(** a call and what it returns: RandomManager.cpp:34-37, :39-42, :44-48, :50-55 *)
Definition manager_call (m : manager) (o : rand_op) : manager * option N :=
  match o with
  | PureRand v => (m, Some v)
  | SequenceRand => let (g, v) := mt_draw (std_gen m) in ({| std_gen := g; seed_gen := seed_gen m |}, Some v)
  | SetSeed sd => ({| std_gen := mt_seed sd; seed_gen := seed_gen m |}, None)
  | SeededRand sd => let (g, v) := mt_draw (mt_seed sd) in ({| std_gen := std_gen m; seed_gen := g |}, Some v)
  end.
Fixpoint manager_calls (m : manager) (os : list rand_op) : list (option N) :=
  match os with
  | [] => []
  | o :: os' => snd (manager_call m o) :: manager_calls (fst (manager_call m o)) os'
  end.
(** rand<true>, rand<false> and rand(seed), RandomManager.cpp:57-73, TSafeRandomManager.cpp:60-76 *)
Definition rand_pure (v : N) : rand_op := PureRand v.
Definition rand_sequence : rand_op := SequenceRand.
Definition rand_seeded (sd : N) : rand_op := SeededRand sd.

(** TSafeRandomManager: any number of threads *)
Inductive gen_id := Std | Seeded.   (* std_random_generator_, seed_random_generator_ *)
(** the generator each function locks, TSafeRandomManager.cpp:42, :49, :56 *)
Definition gen_of (o : rand_op) : option gen_id :=
  match o with PureRand _ => None | SequenceRand | SetSeed _ => Some Std | SeededRand _ => Some Seeded end.

Inductive rand_pc :=
| RIdle
| RLock (o : rand_op)                 (* before lock_guard, or before the device *)
| RHeld (o : rand_op)                 (* lock taken *)
| RDraw (o : rand_op)                 (* seeded, before :58 *)
| RRead (o : rand_op) (g : G)         (* the generator has been read *)
| RDone (o : rand_op) (r : option N)  (* before releasing the lock *)
| RRet (o : rand_op) (r : option N).  (* before returning *)

Record rstate := {
  gen : gen_id -> G; lock : gen_id -> option nat;
  rpcs : list rand_pc; revents : list (lev rand_op (option N)) }.

Definition gen_eqb (x y : gen_id) : bool := match x, y with Std, Std | Seeded, Seeded => true | _, _ => false end.
Definition set {A} (f : gen_id -> A) (x : gen_id) (v : A) : gen_id -> A := fun y => if gen_eqb x y then v else f y.

(** constructor, TSafeRandomManager.cpp:28-33, and [n] idle threads *)
Definition rinit (original_seed : N) (n : nat) : rstate :=
  {| gen := fun x => match x with Std => mt_seed original_seed | Seeded => mt_default end; lock := fun _ => None;
     rpcs := repeat RIdle n; revents := [] |}.

Definition rgo (s : rstate) (t : nat) (p : rand_pc) : rstate :=
  {| gen := gen s; lock := lock s; rpcs := upd (rpcs s) t p; revents := revents s |}.
Definition remit (s : rstate) (e : lev rand_op (option N)) : rstate :=
  {| gen := gen s; lock := lock s; rpcs := rpcs s; revents := e :: revents s |}.
Definition rlocked (s : rstate) (x : gen_id) (l : option nat) : rstate :=
  {| gen := gen s; lock := set (lock s) x l; rpcs := rpcs s; revents := revents s |}.
Definition rset (s : rstate) (x : gen_id) (g : G) : rstate :=
  {| gen := set (gen s) x g; lock := lock s; rpcs := rpcs s; revents := revents s |}.

(** an idle thread begins a call *)
Definition rcall (s : rstate) (t : nat) (o : rand_op) : option rstate :=
  match nth_error (rpcs s) t with
  | Some RIdle => Some (remit (rgo s t (RLock o)) (LCall t o))
  | _ => None
  end.

(** the next step of thread [t], TSafeRandomManager.cpp:35-59 *)
Definition rrun (s : rstate) (t : nat) : option rstate :=
  match nth_error (rpcs s) t with
  | Some (RLock o) =>
      match gen_of o with
      | None => match o with PureRand v => Some (remit (rgo s t (RRet o (Some v))) (LDo t o (Some v))) | _ => None end   (* :37 *)
      | Some x => match lock s x with None => Some (rgo (rlocked s x (Some t)) t (RHeld o)) | Some _ => None end
      end
  | Some (RHeld o) =>
      match o with
      | SequenceRand => Some (rgo s t (RRead o (gen s Std)))                                             (* :43 *)
      | SetSeed sd => Some (remit (rgo (rset s Std (mt_seed sd)) t (RDone o None)) (LDo t o None))       (* :50 *)
      | SeededRand sd => Some (rgo (rset s Seeded (mt_seed sd)) t (RDraw o))                             (* :57 *)
      | PureRand _ => None
      end
  | Some (RDraw o) => Some (rgo s t (RRead o (gen s Seeded)))                                            (* :58 *)
  | Some (RRead o g) =>
      match gen_of o with
      | Some x => let (g', v) := mt_draw g in Some (remit (rgo (rset s x g') t (RDone o (Some v))) (LDo t o (Some v)))
      | None => None
      end
  | Some (RDone o r) =>
      match gen_of o with
      | Some x => Some (rgo (rlocked s x None) t (RRet o r))
      | None => None
      end
  | Some (RRet o r) => Some (remit (rgo s t RIdle) (LRet t o r))
  | _ => None
  end.

Inductive rlabel := RCall (t : nat) (o : rand_op) | RRun (t : nat).
Definition rstep (s : rstate) (l : rlabel) : option rstate :=
  match l with RCall t o => rcall s t o | RRun t => rrun s t end.
Fixpoint rsteps (s : rstate) (ls : list rlabel) : option rstate :=
  match ls with
  | [] => Some s
  | l :: ls' => match rstep s l with Some s' => rsteps s' ls' | None => None end
  end.
End Model.
Arguments RIdle {G}. Arguments RLock {G} o. Arguments RHeld {G} o. Arguments RDraw {G} o.
Arguments RRead {G} o g. Arguments RDone {G} o r. Arguments RRet {G} o r.
Arguments rpcs {G} r. Arguments revents {G} r. Arguments gen {G} r. Arguments lock {G} r. 
