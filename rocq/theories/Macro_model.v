(** Model of the macros MAX and MIN, cpp_utils/include/cpp_utils/macros/macros.hpp:78-79, which
    replace tokens: arguments are lists of tokens, and what a use of the macro means is found by
    parsing the tokens that result with the precedences of C++ (a part of its expressions).
    Integers do not overflow; the operands of an operator are evaluated from left to right. *)
From Coq Require Export List ZArith Arith Bool.
Export ListNotations.

Inductive token :=
| TNum (z : Z) | TVar (x : nat)
| TIncr                               (* ++ after a variable *)
| TTimes | TPlus | TMinus | TLt | TGt | TQuestion | TColon | TOpen | TClose.

(** macros.hpp:78: #define MAX(x, y) x < y ? y : x *)
Definition macro_max (x y : list token) : list token := x ++ [TLt] ++ y ++ [TQuestion] ++ y ++ [TColon] ++ x.
(** macros.hpp:79: #define MIN(x, y) x > y ? y : x *)
Definition macro_min (x y : list token) : list token := x ++ [TGt] ++ y ++ [TQuestion] ++ y ++ [TColon] ++ x.

(** ** Expressions of C++ *)
Inductive expr :=
| ENum (z : Z) | EVar (x : nat) | EIncr (x : nat)
| EBin (op : token) (a b : expr)
| ECond (c a b : expr).

(** the binary operators of a level: 1 multiplicative, 2 additive, 3 relational *)
Definition operator (level : nat) (t : token) : bool :=
  match level, t with
  | 1, TTimes | 2, TPlus | 2, TMinus | 3, TLt | 3, TGt => true
  | _, _ => false
  end.

(** to parse an expression of a level (0 primary or postfix, 4 conditional), or what follows the
    operand [e] of a level *)
Inductive job := Level (k : nat) | Rest (k : nat) (e : expr).

(** the expression and the tokens that remain; [n] bounds the number of steps *)
Fixpoint parse (n : nat) (j : job) (ts : list token) : option (expr * list token) :=
  match n with
  | 0 => None
  | S n =>
    match j with
    | Level 0 =>
      match ts with
      | TNum z :: r => Some (ENum z, r)
      | TVar x :: TIncr :: r => Some (EIncr x, r)
      | TVar x :: r => Some (EVar x, r)
      | TOpen :: r => match parse n (Level 4) r with Some (e, TClose :: r') => Some (e, r') | _ => None end
      | _ => None
      end
    | Level 4 =>
      match parse n (Level 3) ts with
      | Some (c, TQuestion :: r) =>
        match parse n (Level 4) r with
        | Some (a, TColon :: r1) => match parse n (Level 4) r1 with Some (b, r2) => Some (ECond c a b, r2) | None => None end
        | _ => None
        end
      | x => x
      end
    | Level (S k) => match parse n (Level k) ts with Some (e, r) => parse n (Rest (S k) e) r | None => None end
    | Rest (S k) e =>
      match ts with
      | op :: r => if operator (S k) op then match parse n (Level k) r with Some (e2, r2) => parse n (Rest (S k) (EBin op e e2)) r2 | None => None end else Some (e, ts)
      | [] => Some (e, [])
      end
    | Rest 0 e => Some (e, ts)
    end
  end.

(** the value of an expression and the variables after it *)
Definition apply (op : token) (a b : Z) : Z :=
  match op with
  | TTimes => a * b | TPlus => a + b | TMinus => a - b
  | TLt => if Z.ltb a b then 1 else 0
  | TGt => if Z.ltb b a then 1 else 0
  | _ => 0
  end.
Fixpoint eval (e : expr) (st : nat -> Z) : Z * (nat -> Z) :=
  match e with
  | ENum z => (z, st)
  | EVar x => (st x, st)
  | EIncr x => (st x, fun y => if Nat.eqb y x then (st x + 1)%Z else st y)
  | EBin op a b => let (va, st1) := eval a st in let (vb, st2) := eval b st1 in (apply op va vb, st2)
  | ECond c a b => let (vc, st1) := eval c st in if Z.eqb vc 0 then eval b st1 else eval a st1
  end.
