(** Model of cpp_utils/include/cpp_utils/queue/DBQueue.hpp, as a transition system.

    The elements are numbers, for any type: nothing here depends on what they are.  Every
    function takes a step for each lock, two steps for its accesses, their beginning and
    their end, and a step for each unlock; [raced] records that an access has begun during
    another one to the same queue or the pointer to it, and one of them writes, which is
    undefined behaviour.  So is [front] or [pop] of an empty queue, result [RUndefined].
    The two overloads of [push], :61-74, and of [front], :78-88, differ in nothing that is modelled. *)
From Verif Require Export Threads Lin_spec.

(** std::queue on a std::deque; [first]: how many elements have been removed since its
    construction.  A reference to an element is its queue and its number. *)
Record queue := { first : nat; elems : list nat }.
Definition queue_new : queue := {| first := 0; elems := [] |}.
Definition queue_push (q : queue) (x : nat) : queue := {| first := first q; elems := elems q ++ [x] |}.
Definition queue_pop (q : queue) : queue := {| first := S (first q); elems := tl (elems q) |}.
(** std::queue<T>().swap(q): all the elements are destroyed *)
Definition queue_clear (q : queue) : queue := {| first := first q + length (elems q); elems := [] |}.

Inductive which := Alpha | Beta.
Record reference := { r_queue : which; r_number : nat }.

Inductive q_op := Swap | Push (x : nat) | Front | Pop | FrontAndPop | Empty | BothEmpty | Size | Clear.
Inductive q_res :=
| RVoid
| RFront (x : nat) (r : reference)   (* front: the reference; x is what it refers to when it is made *)
| RPopped (x : nat)                  (* pop returns void: x is what it has removed *)
| RValue (x : nat)
| RBool (b : bool)
| RNumber (n : nat)
| RUndefined.

Inductive q_pc :=
| QIdle
| QLockF (o : q_op)               (* before locking m_foreground_mutex *)
| QLockB (o : q_op)               (* before locking m_background_mutex *)
| QIn (o : q_op)                  (* before the accesses *)
| QHalf (o : q_op)                (* during the accesses *)
| QUnlockB (o : q_op) (r : q_res) (* before unlocking m_background_mutex *)
| QUnlockF (o : q_op) (r : q_res) (* before unlocking m_foreground_mutex *)
| QRet (o : q_op) (r : q_res).    (* before returning *)

(** the members, :146-155 *)
Record qstate := {
  alpha : queue; beta : queue; fg : which; bg : which;
  fg_mutex : option nat; bg_mutex : option nat; raced : bool;
  qpcs : list q_pc; qevents : list (lev q_op q_res) }.

(** :40-44, and n threads that will use the queue *)
Definition qinit (n : nat) : qstate :=
  {| alpha := queue_new; beta := queue_new; fg := Alpha; bg := Beta; fg_mutex := None; bg_mutex := None; raced := false;
     qpcs := repeat QIdle n; qevents := [] |}.

Definition get (s : qstate) (w : which) : queue := match w with Alpha => alpha s | Beta => beta s end.
Definition put (s : qstate) (w : which) (q : queue) : qstate :=
  {| alpha := match w with Alpha => q | Beta => alpha s end; beta := match w with Alpha => beta s | Beta => q end;
     fg := fg s; bg := bg s; fg_mutex := fg_mutex s; bg_mutex := bg_mutex s; raced := raced s; qpcs := qpcs s; qevents := qevents s |}.
Definition point (s : qstate) (f b : which) : qstate :=
  {| alpha := alpha s; beta := beta s; fg := f; bg := b; fg_mutex := fg_mutex s; bg_mutex := bg_mutex s; raced := raced s; qpcs := qpcs s; qevents := qevents s |}.
Definition qlocks (s : qstate) (f b : option nat) : qstate :=
  {| alpha := alpha s; beta := beta s; fg := fg s; bg := bg s; fg_mutex := f; bg_mutex := b; raced := raced s; qpcs := qpcs s; qevents := qevents s |}.
Definition qrace (s : qstate) (r : bool) : qstate :=
  {| alpha := alpha s; beta := beta s; fg := fg s; bg := bg s; fg_mutex := fg_mutex s; bg_mutex := bg_mutex s; raced := raced s || r; qpcs := qpcs s; qevents := qevents s |}.
Definition qgo (s : qstate) (t : nat) (p : q_pc) : qstate :=
  {| alpha := alpha s; beta := beta s; fg := fg s; bg := bg s; fg_mutex := fg_mutex s; bg_mutex := bg_mutex s; raced := raced s; qpcs := upd (qpcs s) t p; qevents := qevents s |}.
Definition qemit (s : qstate) (e : lev q_op q_res) : qstate :=
  {| alpha := alpha s; beta := beta s; fg := fg s; bg := bg s; fg_mutex := fg_mutex s; bg_mutex := bg_mutex s; raced := raced s; qpcs := qpcs s; qevents := e :: qevents s |}.

(** the mutexes that a function locks: m_foreground_mutex, :49, :80, :86, :93, :100, :116, :123, :131, :138,
    and m_background_mutex, :50, :64, :72, :124, :139 *)
Definition locks_fg (o : q_op) : bool := match o with Push _ => false | _ => true end.
Definition locks_bg (o : q_op) : bool := match o with Push _ | Swap | BothEmpty | Clear => true | _ => false end.

(** what a function reads and writes of each queue and the pointer to it *)
Definition reads_fg (o : q_op) : bool := match o with Front | Empty | BothEmpty | Size => true | _ => false end.
Definition writes_fg (o : q_op) : bool := match o with Swap | Pop | FrontAndPop | Clear => true | _ => false end.
Definition reads_bg (o : q_op) : bool := match o with BothEmpty => true | _ => false end.
Definition writes_bg (o : q_op) : bool := match o with Swap | Push _ | Clear => true | _ => false end.
Definition conflict (o o' : q_op) : bool :=
  (writes_fg o && (reads_fg o' || writes_fg o')) || (reads_fg o && writes_fg o') ||
  (writes_bg o && (reads_bg o' || writes_bg o')) || (reads_bg o && writes_bg o').
Definition clashes (o : q_op) (p : q_pc) : bool := match p with QHalf o' => conflict o o' | _ => false end.

Definition is_empty (q : queue) : bool := match elems q with [] => true | _ => false end.

(** what each function does and returns *)
Definition perform (s : qstate) (o : q_op) : qstate * q_res :=
  match o with
  | Swap => (point (put s (fg s) (queue_clear (get s (fg s)))) (bg s) (fg s), RVoid)       (* :47-58 *)
  | Push x => (put s (bg s) (queue_push (get s (bg s)) x), RVoid)                          (* :61-74 *)
  | Front =>                                                                               (* :78-88 *)
      match elems (get s (fg s)) with
      | [] => (s, RUndefined)
      | x :: _ => (s, RFront x {| r_queue := fg s; r_number := first (get s (fg s)) |})
      end
  | Pop =>                                                                                 (* :91-95 *)
      match elems (get s (fg s)) with [] => (s, RUndefined) | x :: _ => (put s (fg s) (queue_pop (get s (fg s))), RPopped x) end
  | FrontAndPop =>                                                                         (* :98-111 *)
      match elems (get s (fg s)) with [] => (s, RUndefined) | x :: _ => (put s (fg s) (queue_pop (get s (fg s))), RValue x) end
  | Empty => (s, RBool (is_empty (get s (fg s))))                                          (* :114-118 *)
  | BothEmpty => (s, RBool (is_empty (get s (fg s)) && is_empty (get s (bg s))))           (* :121-126 *)
  | Size => (s, RNumber (length (elems (get s (fg s)))))                                   (* :129-133 *)
  | Clear =>                                                                               (* :136-142 *)
      let s' := put s (fg s) (queue_clear (get s (fg s))) in
      (put s' (bg s') (queue_clear (get s' (bg s'))), RVoid)
  end.

Definition qcall (s : qstate) (t : nat) (o : q_op) : option qstate :=
  match nth_error (qpcs s) t with
  | Some QIdle => Some (qemit (qgo s t (if locks_fg o then QLockF o else QLockB o)) (LCall t o))
  | _ => None
  end.

(** the next step of thread [t]; guards unlock in the reverse order *)
Definition qrun (s : qstate) (t : nat) : option qstate :=
  match nth_error (qpcs s) t with
  | Some (QLockF o) =>
      match fg_mutex s with
      | None => Some (qgo (qlocks s (Some t) (bg_mutex s)) t (if locks_bg o then QLockB o else QIn o))
      | Some _ => None
      end
  | Some (QLockB o) =>
      match bg_mutex s with None => Some (qgo (qlocks s (fg_mutex s) (Some t)) t (QIn o)) | Some _ => None end
  | Some (QIn o) => Some (qgo (qrace s (existsb (clashes o) (qpcs s))) t (QHalf o))
  | Some (QHalf o) =>
      let (s', r) := perform s o in
      Some (qemit (qgo s' t (if locks_bg o then QUnlockB o r else QUnlockF o r)) (LDo t o r))
  | Some (QUnlockB o r) => Some (qgo (qlocks s (fg_mutex s) None) t (if locks_fg o then QUnlockF o r else QRet o r))
  | Some (QUnlockF o r) => Some (qgo (qlocks s None (bg_mutex s)) t (QRet o r))
  | Some (QRet o r) => Some (qemit (qgo s t QIdle) (LRet t o r))
  | _ => None
  end.

Inductive qlabel := QCall (t : nat) (o : q_op) | QRun (t : nat).
Definition qstep (s : qstate) (l : qlabel) : option qstate := match l with QCall t o => qcall s t o | QRun t => qrun s t end.
Fixpoint qsteps (s : qstate) (ls : list qlabel) : option qstate :=
  match ls with
  | [] => Some s
  | l :: ls' => match qstep s l with Some s' => qsteps s' ls' | None => None end
  end.

(** the use of a reference, by the code that has called [front] *)
Definition deref (s : qstate) (r : reference) : option nat :=
  let q := get s (r_queue r) in
  if first q <=? r_number r then nth_error (elems q) (r_number r - first q) else None.
