(** Model of the messages of logUser, logDebug and logDevError, Log.hpp:58,71,101: the message is a list of
    tokens that is put after [<<].  The tokens that result are parsed with the precedences of C++
    (a part of its expressions), with the types of their operands.  Numbers do not overflow; the
    stream is always good. *)
From Coq Require Export List ZArith Arith Bool.
From Verif Require Export Str.
Export ListNotations.

Inductive token :=
| TNum (z : Z) | TText (t : str) | TVar (x : nat)     (* a number, a string literal, an int variable *)
| TStream                                            (* fastdds_log_ss_tmp__ or std::cout *)
| TTimes | TPlus | TMinus | TShl | TLt | TGt | TQuestion | TColon | TOpen | TClose.

(** Log.hpp:71,101: fastdds_log_ss_tmp__ << prefix << msg *)
Definition queued_text (prefix : str) (msg : list token) : list token := [TStream; TShl; TText prefix; TShl] ++ msg.
(** Log.hpp:58: std::cout << msg << std::endl; [std::endl] is taken as a text *)
Definition line_end : str := [ascii_of_nat 10].
Definition printed_text (msg : list token) : list token := [TStream; TShl] ++ msg ++ [TShl; TText line_end].

(** ** Expressions of C++ *)
Inductive expr := ENum (z : Z) | EText (t : str) | EVar (x : nat) | EStream | EBin (op : token) (a b : expr) | ECond (c a b : expr).

(** the binary operators of a level: 1 multiplicative, 2 additive, 3 shift, 4 relational *)
Definition operator (level : nat) (t : token) : bool :=
  match level, t with
  | 1, TTimes | 2, TPlus | 2, TMinus | 3, TShl | 4, TLt | 4, TGt => true
  | _, _ => false
  end.
(** to parse an expression of a level (0 primary, 5 conditional), or what follows the operand [e] of a level *)
Inductive job := Level (k : nat) | Rest (k : nat) (e : expr).
Fixpoint parse (n : nat) (j : job) (ts : list token) : option (expr * list token) :=
  match n with
  | 0 => None
  | S n =>
    match j with
    | Level 0 =>
      match ts with
      | TNum z :: r => Some (ENum z, r)
      | TText t :: r => Some (EText t, r)
      | TVar x :: r => Some (EVar x, r)
      | TStream :: r => Some (EStream, r)
      | TOpen :: r => match parse n (Level 5) r with Some (e, TClose :: r') => Some (e, r') | _ => None end
      | _ => None
      end
    | Level 5 =>
      match parse n (Level 4) ts with
      | Some (c, TQuestion :: r) =>
        match parse n (Level 5) r with
        | Some (a, TColon :: r1) => match parse n (Level 5) r1 with Some (b, r2) => Some (ECond c a b, r2) | None => None end
        | _ => None
        end
      | x => x
      end
    | Level (S k) => match parse n (Level k) ts with Some (e, r) => parse n (Rest (S k) e) r | None => None end
    | Rest (S k) e =>
      match ts with
      | op :: r => if operator (S k) op then match parse n (Level k) r with Some (e2, r2) => parse n (Rest (S k) (EBin op e e2)) r2 | None => None end else Some (e, ts)
      | [] => Some (e, [])
      end
    | Rest 0 e => Some (e, ts)
    end
  end.

(** ** Types: [None] does not compile *)
Inductive type := Int | CharPtr | Stream.
Fixpoint type_of (e : expr) : option type :=
  match e with
  | ENum _ | EVar _ => Some Int
  | EText _ => Some CharPtr
  | EStream => Some Stream
  | EBin TShl a b =>
    match type_of a, type_of b with
    | Some Stream, Some Int | Some Stream, Some CharPtr => Some Stream
    | Some Int, Some Int => Some Int
    | _, _ => None
    end
  | EBin _ a b => match type_of a, type_of b with Some Int, Some Int => Some Int | _, _ => None end
  | ECond c a b =>
    match type_of c, type_of a, type_of b with
    | Some _, Some Int, Some Int => Some Int
    | Some _, Some CharPtr, Some CharPtr => Some CharPtr
    | Some _, Some Stream, Some Stream => Some Stream
    | _, _, _ => None
    end
  end.

(** ** Values of expressions that compile, and what has been written to the stream *)
Inductive value := VNum (z : Z) | VText (t : str) | VStream.
Definition apply (op : token) (a b : Z) : Z :=
  match op with
  | TTimes => a * b | TPlus => a + b | TMinus => a - b | TShl => Z.shiftl a b
  | TLt => if Z.ltb a b then 1 else 0
  | TGt => if Z.ltb b a then 1 else 0
  | _ => 0
  end.
Section Eval.
Variable decimal : Z -> str.          (* the digits of a number *)
Variable vars : nat -> Z.
Definition shown (v : value) : str := match v with VNum z => decimal z | VText t => t | VStream => [] end.
(** a pointer to a literal and a good stream are true *)
Definition truth (v : value) : bool := match v with VNum z => negb (Z.eqb z 0) | _ => true end.
Fixpoint eval (e : expr) (out : str) : value * str :=
  match e with
  | ENum z => (VNum z, out)
  | EText t => (VText t, out)
  | EVar x => (VNum (vars x), out)
  | EStream => (VStream, out)
  | EBin op a b =>
    let (va, out1) := eval a out in let (vb, out2) := eval b out1 in
    match va, vb with
    | VStream, _ => (VStream, out2 ++ shown vb)
    | VNum x, VNum y => (VNum (apply op x y), out2)
    | _, _ => (va, out2)
    end
  | ECond c a b => let (vc, out1) := eval c out in if truth vc then eval a out1 else eval b out1
  end.
End Eval.
