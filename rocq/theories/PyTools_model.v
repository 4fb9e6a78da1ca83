(** Model of py_utils/py_utils/time/Timer.py and of the decorator of
    py_utils/py_utils/debugging/debug_utils.py. *)
From Verif Require Export Str Float_model.
From Coq Require Export ZArith QArith Qabs List Bool.
Export ListNotations.
Local Open Scope Q_scope.

(** ** Timer *)

(** time.time() (CPython 3.11, _PyTime_AsSecondsDouble) when the system clock is [ns] nanoseconds after the epoch *)
Definition seconds_double (ns : Z) : Q :=
  if (ns mod 1000000000 =? 0)%Z then rnd (inject_Z (ns / 1000000000)) else rnd (rnd (inject_Z ns) / 1000000000).

(** the difference of two doubles that are not negative *)
Definition minus (a b : Q) : Q := if Qle_bool b a then rnd (a - b) else - rnd (b - a).

(** the attribute _start_time *)
Definition timer := Q.
(** Timer.py:33-37 [__init__] *)
Definition timer_new (clock : Z) : timer := seconds_double clock.
(** Timer.py:39-43 [reset] *)
Definition timer_reset (clock : Z) (t : timer) : timer := seconds_double clock.
(** Timer.py:45-51 [elapsed] *)
Definition timer_elapsed (clock : Z) (t : timer) : Q := minus (seconds_double clock) t.

(** a timer created when the clock is [born], and reset at each of the given readings of the clock *)
Definition timer_run (born : Z) (resets : list Z) : timer := fold_left (fun t c => timer_reset c t) resets (timer_new born).

(** ** The decorator *)
Section Decorator.
(** values of Python, exceptions, and everything functions may read and change *)
Variables value exn state : Type.
(** [repr], that may raise *)
Variable repr : value -> str + exn.

Inductive result := Returned (v : value) | Raised (e : exn).
(** what a call does: its result, the state after it and the messages it gives to logger.debug, the oldest first.
    Functions do not depend on the messages. *)
Definition function := list value -> list (str * value) -> state -> result * state * list str.

Fixpoint reprs (l : list value) : list str + exn :=
  match l with
  | [] => inl []
  | v :: l => match repr v with inr e => inr e | inl t => match reprs l with inr e => inr e | inl ts => inl (t :: ts) end end
  end.
Fixpoint comma (l : list str) : str := match l with [] => [] | [t] => t | t :: l => t ++ s ", " ++ comma l end.
(** format() of a tuple *)
Definition tuple_text (l : list value) : str + exn :=
  match reprs l with inr e => inr e | inl [t] => inl (s "(" ++ t ++ s ",)") | inl ts => inl (s "(" ++ comma ts ++ s ")") end.
(** format() of the dictionary of keyword arguments; the keys are identifiers *)
Definition dict_text (l : list (str * value)) : str + exn :=
  match reprs (map snd l) with
  | inr e => inr e
  | inl ts => inl (s "{" ++ comma (map (fun kt => s "'" ++ fst kt ++ s "': " ++ snd kt) (combine (map fst l) ts)) ++ s "}")
  end.

Definition called_text (name args kwargs : str) : str := s "Function <" ++ name ++ s "> called with arguments: <" ++ args ++ s ">, <" ++ kwargs ++ s ">".
Definition finished_text (name : str) : str := s "Function <" ++ name ++ s "> finished".

(** a function with its __name__ *)
Definition named := (str * function)%type.

(** debug_utils.py:29-38; the text of a message is made before logger.debug is called, whatever the level of the logger *)
Definition decorated (f : named) : named :=
  (s "wrapper", fun args kwargs w =>
    match tuple_text args with
    | inr e => (Raised e, w, [])
    | inl a =>
      match dict_text kwargs with
      | inr e => (Raised e, w, [])
      | inl k =>
        match snd f args kwargs w with
        | (Returned v, w', ms) => (Returned v, w', called_text (fst f) a k :: ms ++ [finished_text (fst f)])
        | (Raised e, w', ms) => (Raised e, w', called_text (fst f) a k :: ms)
        end
      end
    end).
End Decorator.
Arguments Returned {value exn}. Arguments Raised {value exn}.
