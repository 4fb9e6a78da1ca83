(** Model of cpp_utils/include/cpp_utils/types/Atomicable.hpp, as a transition system: an object of any type, [T],
    that is used by several threads with the guards of its mutex.

    std::mutex and std::shared_timed_mutex are those of the standard; a std::mutex is the case in which nobody uses
    [Shared].  A method of the object begins and ends in two steps; [araced] records that one has begun while
    another one is executed, and one of them is not const, which is undefined behaviour. *)
From Verif Require Export Threads Lin_spec.

Section Atomicable.
Variables T M R : Type.
(** the methods of Type, public in Atomicable by the inheritance of :43: what they leave and return, and whether they are const *)
Variables (method : M -> T -> T * R) (const : M -> bool).

(** what a thread does with the object while the guard lives: the next method may depend on what the ones before have returned *)
Inductive program := Finish (r : R) | Then (m : M) (k : R -> program).
(** the guard: std::unique_lock or lock_guard, :37-40; std::shared_lock, :53-56; or none, which compiles too *)
Inductive guard := Unique | Shared | NoGuard.
Record use := { with_guard : guard; body : program }.

Inductive apc :=
| AIdle
| ALock (u : use)                                 (* before the constructor of the guard locks *)
| ABody (u : use) (p : program)                   (* p remains to be done *)
| AInside (u : use) (m : M) (k : R -> program)    (* in the method m *)
| AUnlock (u : use) (r : R)                       (* before the destructor of the guard unlocks *)
| ARet (u : use) (r : R).

(** the two base classes, :43, and the threads *)
Record astate := { object : T; owner : option nat; sharers : nat; araced : bool; apcs : list apc; aevents : list (lev use R) }.
Definition ainit (x : T) (n : nat) : astate :=
  {| object := x; owner := None; sharers := 0; araced := false; apcs := repeat AIdle n; aevents := [] |}.

Definition aset (s : astate) (x : T) (o : option nat) (k : nat) : astate :=
  {| object := x; owner := o; sharers := k; araced := araced s; apcs := apcs s; aevents := aevents s |}.
Definition arace (s : astate) (b : bool) : astate :=
  {| object := object s; owner := owner s; sharers := sharers s; araced := araced s || b; apcs := apcs s; aevents := aevents s |}.
Definition ago (s : astate) (t : nat) (p : apc) : astate :=
  {| object := object s; owner := owner s; sharers := sharers s; araced := araced s; apcs := upd (apcs s) t p; aevents := aevents s |}.
Definition aemit (s : astate) (e : lev use R) : astate :=
  {| object := object s; owner := owner s; sharers := sharers s; araced := araced s; apcs := apcs s; aevents := e :: aevents s |}.

Definition aclashes (m : M) (p : apc) : bool := match p with AInside _ m' _ => negb (const m && const m') | _ => false end.

Definition arun (s : astate) (t : nat) : option astate :=
  match nth_error (apcs s) t with
  | Some (ALock u) =>
      match with_guard u, owner s, sharers s with
      | Unique, None, 0 => Some (ago (aset s (object s) (Some t) 0) t (ABody u (body u)))
      | Shared, None, k => Some (ago (aset s (object s) None (k + 1)) t (ABody u (body u)))
      | NoGuard, _, _ => Some (ago s t (ABody u (body u)))
      | _, _, _ => None
      end
  | Some (ABody u (Finish r)) => Some (aemit (ago s t (AUnlock u r)) (LDo t u r))
  | Some (ABody u (Then m k)) => Some (ago (arace s (existsb (aclashes m) (apcs s))) t (AInside u m k))
  | Some (AInside u m k) => let (x, r) := method m (object s) in Some (ago (aset s x (owner s) (sharers s)) t (ABody u (k r)))
  | Some (AUnlock u r) =>
      match with_guard u with
      | Unique => Some (ago (aset s (object s) None (sharers s)) t (ARet u r))
      | Shared => Some (ago (aset s (object s) (owner s) (sharers s - 1)) t (ARet u r))
      | NoGuard => Some (ago s t (ARet u r))
      end
  | Some (ARet u r) => Some (aemit (ago s t AIdle) (LRet t u r))
  | _ => None
  end.
Definition acall (s : astate) (t : nat) (u : use) : option astate :=
  match nth_error (apcs s) t with Some AIdle => Some (aemit (ago s t (ALock u)) (LCall t u)) | _ => None end.

Inductive alabel := ACall (t : nat) (u : use) | ARun (t : nat).
Definition astep (s : astate) (l : alabel) : option astate := match l with ACall t u => acall s t u | ARun t => arun s t end.
Fixpoint asteps (s : astate) (ls : list alabel) : option astate :=
  match ls with
  | [] => Some s
  | l :: ls' => match astep s l with Some s' => asteps s' ls' | None => None end
  end.
End Atomicable.
Arguments Finish {M R}. Arguments Then {M R}. Arguments with_guard {M R}. Arguments body {M R}.
Arguments AIdle {M R}. Arguments ALock {M R}. Arguments ABody {M R}. Arguments AInside {M R}. Arguments AUnlock {M R}. Arguments ARet {M R}.
Arguments object {T M R}. Arguments owner {T M R}. Arguments sharers {T M R}. Arguments araced {T M R}. Arguments apcs {T M R}. Arguments aevents {T M R}.
Arguments ainit {T M R}. Arguments aset {T M R}. Arguments arace {T M R}. Arguments ago {T M R}. Arguments aemit {T M R}.
Arguments aclashes {M R}. Arguments arun {T M R}. Arguments acall {T M R}. Arguments ACall {M R}. Arguments ARun {M R}. Arguments astep {T M R}. Arguments asteps {T M R}.
