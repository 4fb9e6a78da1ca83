(** Model of the macros logUser, logDebug and logDevError, cpp_utils/include/cpp_utils/Log.hpp, which
    replace tokens.  The statements of C++ are those made of expressions, blocks, if and else; a
    program is a list of tokens, and what it means is found by parsing it.  What the program does
    otherwise, what its conditions are, what the message of a use is and what Fast DDS does
    with an entry are parameters.  [using namespace] in the macros is taken to change no name. *)
From Coq Require Export List ZArith Arith Bool.
From Verif Require Export Str Logging_model.
Export ListNotations.

(** what the preprocessor knows: [None] is a name without definition *)
Record flags := { have_log_no_info : option Z; enforce_log_info : option Z; internaldebug2 : option Z; internaldebug1 : option Z;
  debug1 : option Z; debug2 : option Z; ndebug : option Z }.
Definition defined (x : option Z) : bool := match x with Some _ => true | None => false end.
(** in a condition of the preprocessor a name without definition is 0 *)
Definition truth (x : option Z) : bool := match x with Some z => negb (Z.eqb z 0) | None => false end.

(** the three definitions of logDebug_ and of logDevError_: queueing, a lambda that is never called, nothing *)
Inductive build := Queueing | Lambda | Nothing.
(** Log.hpp:61-64, 76, 86 and 91-94, 106, 116 *)
Definition build_of (f : flags) : build :=
  if negb (truth (have_log_no_info f)) && (defined (enforce_log_info f) ||
       ((defined (internaldebug2 f) || defined (internaldebug1 f)) && (defined (debug1 f) || defined (debug2 f) || negb (defined (ndebug f)))))
  then Queueing
  else if truth (internaldebug2 f) || truth (internaldebug1 f) then Lambda else Nothing.

Inductive macro := LogUser | LogDebug | LogDevError.

(** expressions: those of the program, the use [u] of a macro as the programmer writes it, and those in the macros *)
Inductive action :=
| AOther (n : nat)
| AUse (m : macro) (u : nat)
| AUsing                              (* using namespace eprosima::fastdds::dds *)
| AStream                             (* std::stringstream fastdds_log_ss_tmp__ *)
| AWrite (prefix : str) (u : nat)     (* fastdds_log_ss_tmp__ << prefix << msg *)
| AQueue (k : kind)                   (* Log::QueueLog(fastdds_log_ss_tmp__.str(), ..., k) *)
| ALambda (u : nat)                   (* auto fastdds_log_lambda_tmp__ = [&]() { ... << msg; } *)
| AVoid                               (* (void)fastdds_log_lambda_tmp__ *)
| APrint (u : nat).                   (* std::cout << msg << std::endl *)
Inductive condition := COther (n : nat) | CVerbosity (k : kind).   (* Log::GetVerbosity() >= k *)

Inductive token := TDo (a : action) | TSemi | TOpen | TClose | TIf (c : condition) | TElse.

Definition debug_prefix : str := s "DEBUG: ".
Definition dev_prefix : str := s "DEV_WARNING: ".
Definition queueing (prefix : str) (k : kind) (u : nat) : list token :=
  [TOpen; TDo AUsing; TSemi; TIf (CVerbosity Info); TOpen; TDo AStream; TSemi; TDo (AWrite prefix u); TSemi; TDo (AQueue k); TSemi; TClose; TClose].
(** Log.hpp:58 (with the semicolon at its end), 65-75 and 95-105, 77-85 and 107-115, 87 and 117 *)
Definition expansion (b : build) (m : macro) (u : nat) : list token :=
  match m, b with
  | LogUser, _ => [TDo (APrint u); TSemi]
  | LogDebug, Queueing => queueing debug_prefix Info u
  | LogDevError, Queueing => queueing dev_prefix Warning u
  | _, Lambda => [TOpen; TDo (ALambda u); TSemi; TDo AVoid; TSemi; TClose]
  | _, Nothing => []
  end.
Fixpoint expand (b : build) (ts : list token) : list token :=
  match ts with
  | [] => []
  | TDo (AUse m u) :: r => expansion b m u ++ expand b r
  | t :: r => t :: expand b r
  end.

(** ** Statements of C++ *)
Inductive stmt := Empty | Do (a : action) | Seq (a b : stmt) | If (c : condition) (t : stmt) | IfElse (c : condition) (t e : stmt).

(** to parse one statement, or statements up to the end or a closing brace *)
Inductive job := One | Many.
Fixpoint parse (n : nat) (j : job) (ts : list token) : option (stmt * list token) :=
  match n with
  | 0 => None
  | S n =>
    match j with
    | One =>
      match ts with
      | TSemi :: r => Some (Empty, r)
      | TDo a :: TSemi :: r => Some (Do a, r)
      | TOpen :: r => match parse n Many r with Some (x, TClose :: r') => Some (x, r') | _ => None end
      | TIf c :: r =>
        match parse n One r with
        | Some (t, TElse :: r') => match parse n One r' with Some (e, r2) => Some (IfElse c t e, r2) | None => None end
        | Some (t, r') => Some (If c t, r')
        | None => None
        end
      | _ => None
      end
    | Many =>
      match ts with
      | [] => Some (Empty, [])
      | TClose :: _ => Some (Empty, ts)
      | _ => match parse n One ts with Some (x, r) => match parse n Many r with Some (y, r') => Some (Seq x y, r') | None => None end | None => None end
      end
    end
  end.

Section Exec.
Context {S : Type} (act : action -> S -> S) (test : condition -> S -> bool * S).
Fixpoint exec (p : stmt) (st : S) : S :=
  match p with
  | Empty => st
  | Do a => act a st
  | Seq a b => exec b (exec a st)
  | If c t => let (b, st1) := test c st in if b then exec t st1 else st1
  | IfElse c t e => let (b, st1) := test c st in if b then exec t st1 else exec e st1
  end.
End Exec.

(** what surrounds the macros *)
Record world (W : Type) := {
  other : nat -> W -> W;                 (* the other expressions of the program *)
  decide : nat -> W -> bool * W;         (* its conditions *)
  verbosity_of : W -> kind;              (* Log::GetVerbosity *)
  evaluate : nat -> W -> str * W;        (* the message of a use, as a text, and what evaluating it does *)
  queue : kind -> str -> W -> W;         (* Log::QueueLog *)
  print : str -> W -> W                  (* a text and the end of the line to std::cout *) }.
Arguments other {W}. Arguments decide {W}. Arguments verbosity_of {W}. Arguments evaluate {W}. Arguments queue {W}. Arguments print {W}.

(** the world and the text in fastdds_log_ss_tmp__ *)
Definition act {W} (w : world W) (a : action) (st : W * str) : W * str :=
  match a with
  | AOther n => (other w n (fst st), snd st)
  | AUse _ _ | AUsing | ALambda _ | AVoid => st
  | AStream => (fst st, [])
  | AWrite prefix u => let (t, x) := evaluate w u (fst st) in (x, snd st ++ prefix ++ t)
  | AQueue k => (queue w k (snd st) (fst st), snd st)
  | APrint u => let (t, x) := evaluate w u (fst st) in (print w t x, snd st)
  end.
Definition test {W} (w : world W) (c : condition) (st : W * str) : bool * (W * str) :=
  match c with
  | COther n => let (b, x) := decide w n (fst st) in (b, (x, snd st))
  | CVerbosity k => (Z.leb (kind_value k) (kind_value (verbosity_of w (fst st))), st)
  end.
