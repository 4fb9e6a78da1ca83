(** The wait handlers of Wait_model with a system clock that can be set: utils::now is
    std::chrono::system_clock::now, cpp_utils/include/cpp_utils/time/time_utils.hpp:35 and
    cpp_utils/src/cpp/time/time_utils.cpp:38-41, and the waits last until a moment of this clock,
    cpp_utils/include/cpp_utils/wait/impl/WaitHandler.ipp:144-157,
    cpp_utils/src/cpp/wait/CounterWaitHandler.cpp:84-97.

    [now] of Wait_model is what the clock says, [real] the time that has really passed. *)
From Verif Require Export Wait_model.

Section Clock.
Variables (V : Type) (above reached : V -> bool) (incr decr : V -> V).

(** [began]: when each thread has begun its last call; [asked]: when it has read the clock to find its deadline *)
Record kstate := { handler : state V; real : nat; began : list nat; asked : list nat }.

Definition kinit (v : V) (en : bool) (n : nat) : kstate := {| handler := init v en n; real := 0; began := repeat 0 n; asked := repeat 0 n |}.

Inductive klabel :=
| KStep (l : label V)    (* a step of Wait_model; both times pass alike *)
| KSet (time : nat).     (* somebody sets the clock *)

Definition kstep (k : kstate) (l : klabel) : option kstate :=
  match l with
  | KStep l =>
    match step above reached incr decr (handler k) l with
    | None => None
    | Some h => Some {|
        handler := h;
        real := match l with Tick => real k + 1 | _ => real k end;
        began := match l with Call t _ => upd (began k) t (real k) | _ => began k end;
        asked := match l with
                 | Run t _ => match nth_error (threads (handler k)) t with Some (WCheck _) => upd (asked k) t (real k) | _ => asked k end
                 | _ => asked k
                 end |}
    end
  | KSet time => Some {| handler := set_now time (handler k); real := real k; began := began k; asked := asked k |}
  end.
Fixpoint ksteps (k : kstate) (ls : list klabel) : option kstate :=
  match ls with
  | [] => Some k
  | l :: ls' => match kstep k l with Some k' => ksteps k' ls' | None => None end
  end.
End Clock.
Arguments handler {V}. Arguments real {V}. Arguments began {V}. Arguments asked {V}. Arguments kinit {V}.
Arguments KStep {V}. Arguments KSet {V}. Arguments kstep {V}. Arguments ksteps {V}.
