(** Specification of C138: a double queue is two lists, one to read from and one to write to. *)
From Verif Require Import DBQueue_model.

Definition two := (list nat * list nat)%type.   (* to read, to write *)

Inductive q_spec : two -> q_op -> two -> q_res -> Prop :=
| s_swap f b : q_spec (f, b) Swap (b, []) RVoid
| s_push f b x : q_spec (f, b) (Push x) (f, b ++ [x]) RVoid
| s_front x f b r : q_spec (x :: f, b) Front (x :: f, b) (RFront x r)
| s_pop x f b : q_spec (x :: f, b) Pop (f, b) (RPopped x)
| s_front_and_pop x f b : q_spec (x :: f, b) FrontAndPop (f, b) (RValue x)
| s_undefined b o : o = Front \/ o = Pop \/ o = FrontAndPop -> q_spec ([], b) o ([], b) RUndefined
| s_empty f b v : (v = true <-> f = []) -> q_spec (f, b) Empty (f, b) (RBool v)
| s_both_empty f b v : (v = true <-> f = [] /\ b = []) -> q_spec (f, b) BothEmpty (f, b) (RBool v)
| s_size f b : q_spec (f, b) Size (f, b) (RNumber (length f))
| s_clear f b : q_spec (f, b) Clear ([], []) RVoid.

(** what is in the queue: first what can be read, then the rest *)
Definition to_read (s : qstate) : list nat := elems (match fg s with Alpha => alpha s | Beta => beta s end).
Definition to_swap (s : qstate) : list nat := elems (match bg s with Alpha => alpha s | Beta => beta s end).

(** any use by any threads *)
Inductive qreachable (n : nat) : qstate -> Prop :=
| qr_init : qreachable n (qinit n)
| qr_step s l s' : qreachable n s -> qstep s l = Some s' -> qreachable n s'.

(** the newest event of thread t *)
Fixpoint latest (t : nat) (evs : list (lev q_op q_res)) : option (lev q_op q_res) :=
  match evs with [] => None | e :: evs => if by_thread e =? t then Some e else latest t evs end.

(** The intended use: thread c is the only one that reads.  It swaps when it has just found that there is nothing to
    read; it reads and removes when it has found that there is something, and removes what it has just read. *)
Definition intended (c : nat) (s : qstate) (l : qlabel) : Prop :=
  match l with
  | QRun _ => True
  | QCall t o =>
      match o with
      | Push _ | Empty | BothEmpty | Size => True
      | Swap => t = c /\ latest c (qevents s) = Some (LRet c Empty (RBool true))
      | Front | FrontAndPop => t = c /\ latest c (qevents s) = Some (LRet c Empty (RBool false))
      | Pop => t = c /\ (latest c (qevents s) = Some (LRet c Empty (RBool false)) \/
                         exists x r, latest c (qevents s) = Some (LRet c Front (RFront x r)))
      | Clear => False
      end
  end.
Inductive qused (c n : nat) : qstate -> Prop :=
| qu_init : qused c n (qinit n)
| qu_step s l s' : qused c n s -> intended c s l -> qstep s l = Some s' -> qused c n s'.

(** what has been pushed, and what has been removed, oldest first *)
Fixpoint pushed (evs : list (lev q_op q_res)) : list nat :=
  match evs with [] => [] | LDo _ (Push x) _ :: evs => pushed evs ++ [x] | _ :: evs => pushed evs end.
Fixpoint taken (evs : list (lev q_op q_res)) : list nat :=
  match evs with
  | [] => []
  | LDo _ _ (RPopped x) :: evs | LDo _ _ (RValue x) :: evs => taken evs ++ [x]
  | _ :: evs => taken evs
  end.
Definition removes (o : q_op) : bool := match o with Swap | Pop | FrontAndPop | Clear => true | _ => false end.
