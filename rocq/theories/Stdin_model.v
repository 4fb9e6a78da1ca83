(** Model of the threads of cpp_utils/src/cpp/event/StdinEventHandler.cpp, on POSIX: one handler, its
    reading thread, the terminal, the user and any number of threads of the program.  What the keys do
    to the line being read is in Editor_model; here the user ends a line with some text, [Typed].

    - wait_and_decrement, operator ++, enable and disable of activation_times_ are one step each:
      CounterWaitHandler.cpp:39-65, :118-135 and WaitHandler.ipp:50-94 do all they do with
      wait_condition_variable_mutex_ locked, and waiting threads are notified (C31 to C33).  As there,
      the counter is an unsigned int of 32 bits.
    - The parts of EventHandler that matter here, EventHandler.ipp:48-118 and :177-202, are as in
      Watcher_model: event_mutex_, internal_callback_mutex_ and is_callback_set_.  What set_callback and
      unset_callback do with internal_callback_mutex_ locked is one step, possible when it is free.
      The callback called by the reading thread may call read_one_more_line, set_callback and
      unset_callback of its own handler, [Nested].
    - The creation of a thread succeeds.  Log messages and what is written to the terminal are left out.
      The constructor is set_callback, StdinEventHandler.cpp:193-203, and the destructor is
      unset_callback, :205-208. *)
From Coq Require Export ZArith NArith.
From Verif Require Export Str Threads.

(** values of an unsigned int *)
Definition wrap (n : N) : N := (n mod 2 ^ 32)%N.

(** the counter of lines to read given to the constructor, an int, as CounterType: StdinEventHandler.cpp:198 *)
Definition first_value (lines_to_read : Z) : N := Z.to_N (lines_to_read mod 2 ^ 32)%Z.

(** ** The terminal *)
(** StdinEventHandler.cpp:255: the flags without ICANON, 2, ECHO, 8, and ISIG, 1 *)
Definition raw (flags : N) : N := N.ldiff flags 11.

(** the flags c_lflag of the terminal and of the static variable oldt, which all the handlers share, :242 *)
Record terminal := { flags : N; oldt : N }.
(** set_terminal_mode_, :215-266 *)
Definition set_terminal_mode (t : terminal) (enable : bool) : terminal :=
  if enable then {| flags := raw (flags t); oldt := flags t |} else {| flags := oldt t; oldt := oldt t |}.

(** ** Threads *)
(** where the reading thread is, :268-570 *)
Inductive tpc :=
| TNone
| TRaw                            (* :270 *)
| TWait                           (* :272, :566 *)
| TRead                           (* :304: the line is being read *)
| TLine (l : str)                 (* :518 or :548, EventHandler.ipp:182 *)
| TIn (l : str)                   (* in the callback *)
| TNest (b : bool) (l : str)      (* in the callback, in set_callback, true, or unset_callback, false *)
| TSelf                           (* in unset_callback called by the callback: :581 *)
| TAdd (l : str)                  (* :520-523 *)
| TRestore                        (* :569 *)
| TEnded
| TDead.                          (* std::terminate was called *)

(** where a thread of the program is *)
Inductive cpc :=
| CIdle
(* set_callback: EventHandler.ipp:52, :57-66, StdinEventHandler.cpp:574-575, EventHandler.ipp:79 *)
| SLock | SSet | SEnable | SStart | SUnlock
(* unset_callback: EventHandler.ipp:84, :88-102, StdinEventHandler.cpp:580, :581, EventHandler.ipp:118 *)
| ULock | UClear | UDisable | UJoin | UUnlock
(* simulate_event_occurred: EventHandler.ipp:182, in the callback *)
| ELock (l : str) | EIn
(* read_one_more_line, StdinEventHandler.cpp:212 *)
| PMore.

Inductive scall := SetCallback | UnsetCallback | Simulate (l : str) | More.
(** what the callback calls *)
Inductive ncall := NMore | NSet | NUnset.

Inductive sevent :=
| VSetting (t : nat)      (* is_callback_set_ becomes true *)
| VSet (t : nat)          (* set_callback returns *)
| VClearing (t : nat)     (* is_callback_set_ becomes false *)
| VUnset (t : nat)        (* unset_callback returns *)
| VMore                   (* read_one_more_line *)
| VBegin                  (* the reading thread starts to read a line *)
| VTyped (l : str)        (* the user ends the line *)
| VCalled (l : str)       (* the reading thread calls the callback *)
| VDropped (l : str)      (* it does not, because there is no callback *)
| VReturned               (* the callback it called returns *)
| VAdded (l : str)        (* the line is added to the history of commands *)
| VSimulated (l : str)    (* simulate_event_occurred calls the callback *)
| VTerminate.             (* std::terminate *)

Record sstate := {
  value : N;                    (* activation_times_ *)
  enabled : bool;               (* ... is enabled *)
  source : list str;            (* the lines of the stream source_ given to the constructor *)
  ignoring : bool;              (* ignore_input_ *)
  term : terminal;
  reader : tpc;
  em_locked : bool;             (* event_mutex_ *)
  im_locked : bool;             (* internal_callback_mutex_ *)
  is_set : bool;                (* is_callback_set_ *)
  clients : list cpc;
  history : list sevent }.      (* newest first *)

(** [lines]: lines_to_read; [src]: the lines of the stream; [f]: the flags of the terminal; :193-203 *)
Definition sinit (n : nat) (lines : Z) (src : list str) (f : N) : sstate :=
  {| value := first_value lines; enabled := false; source := src; ignoring := false; term := {| flags := f; oldt := 0%N |}; reader := TNone;
     em_locked := false; im_locked := false; is_set := false; clients := repeat CIdle n; history := [] |}.

Definition set_counter (s : sstate) (v : N) (b : bool) := {| value := v; enabled := b; source := source s; ignoring := ignoring s; term := term s; reader := reader s; em_locked := em_locked s; im_locked := im_locked s; is_set := is_set s; clients := clients s; history := history s |}.
Definition set_ignoring (s : sstate) (b : bool) := {| value := value s; enabled := enabled s; source := source s; ignoring := b; term := term s; reader := reader s; em_locked := em_locked s; im_locked := im_locked s; is_set := is_set s; clients := clients s; history := history s |}.
Definition set_term (s : sstate) (t : terminal) := {| value := value s; enabled := enabled s; source := source s; ignoring := ignoring s; term := t; reader := reader s; em_locked := em_locked s; im_locked := im_locked s; is_set := is_set s; clients := clients s; history := history s |}.
Definition set_reader (s : sstate) (p : tpc) := {| value := value s; enabled := enabled s; source := source s; ignoring := ignoring s; term := term s; reader := p; em_locked := em_locked s; im_locked := im_locked s; is_set := is_set s; clients := clients s; history := history s |}.
Definition set_em (s : sstate) (b : bool) := {| value := value s; enabled := enabled s; source := source s; ignoring := ignoring s; term := term s; reader := reader s; em_locked := b; im_locked := im_locked s; is_set := is_set s; clients := clients s; history := history s |}.
Definition set_im (s : sstate) (b : bool) := {| value := value s; enabled := enabled s; source := source s; ignoring := ignoring s; term := term s; reader := reader s; em_locked := em_locked s; im_locked := b; is_set := is_set s; clients := clients s; history := history s |}.
Definition set_set (s : sstate) (b : bool) := {| value := value s; enabled := enabled s; source := source s; ignoring := ignoring s; term := term s; reader := reader s; em_locked := em_locked s; im_locked := im_locked s; is_set := b; clients := clients s; history := history s |}.
Definition set_client (s : sstate) (t : nat) (p : cpc) := {| value := value s; enabled := enabled s; source := source s; ignoring := ignoring s; term := term s; reader := reader s; em_locked := em_locked s; im_locked := im_locked s; is_set := is_set s; clients := upd (clients s) t p; history := history s |}.
Definition say (s : sstate) (e : sevent) := {| value := value s; enabled := enabled s; source := source s; ignoring := ignoring s; term := term s; reader := reader s; em_locked := em_locked s; im_locked := im_locked s; is_set := is_set s; clients := clients s; history := e :: history s |}.

(** ++activation_times_, CounterWaitHandler.cpp:118-135 *)
Definition one_more (s : sstate) : sstate := say (set_counter s (wrap (value s + 1)) (enabled s)) VMore.

(** a step of the reading thread, except the one that needs the user *)
Definition reader_step (s : sstate) : option sstate :=
  match reader s with
  | TNone | TRead | TEnded | TDead => None
  | TRaw => Some (set_reader (set_term s (set_terminal_mode (term s) true)) TWait)
  | TWait => if enabled s then
               if N.ltb 0 (value s) then Some (say (set_reader (set_counter s (value s - 1)%N true) TRead) VBegin) else None
             else Some (set_reader s TRestore)
  | TLine l => if im_locked s then None
               else if is_set s then Some (say (set_im (set_reader s (TIn l)) true) (VCalled l))
               else Some (say (set_reader s (TAdd l)) (VDropped l))
  | TIn l => Some (say (set_im (set_reader s (TAdd l)) false) VReturned)
  | TNest true l => if em_locked s then None else Some (set_reader s (TIn l))
  | TNest false l => if em_locked s then None else Some (set_em (set_set (set_counter (set_reader s TSelf) (value s) false) false) true)
  | TSelf => Some (say (set_reader s TDead) VTerminate)
  | TAdd l => if negb (ignoring s) && negb (match l with [] => true | _ => false end)
              then Some (say (set_reader s TWait) (VAdded l)) else Some (set_reader s TWait)
  | TRestore => Some (set_reader (set_term s (set_terminal_mode (term s) false)) TEnded)
  end.

(** a step of the thread [t] of the program, which is at [p] *)
Definition cstep (s : sstate) (t : nat) (p : cpc) : option sstate :=
  match p with
  | CIdle => None
  | SLock => if em_locked s then None else Some (set_client (set_em s true) t SSet)
  | SSet => if im_locked s then None
            else if is_set s then Some (set_client s t SUnlock) else Some (say (set_client (set_set s true) t SEnable) (VSetting t))
  | SEnable => Some (set_client (set_counter s (value s) true) t SStart)
  | SStart => Some (set_client (set_reader s TRaw) t SUnlock)
  | SUnlock => Some (say (set_client (set_em s false) t CIdle) (VSet t))
  | ULock => if em_locked s then None else Some (set_client (set_em s true) t UClear)
  | UClear => if is_set s then if im_locked s then None else Some (say (set_client (set_set s false) t UDisable) (VClearing t))
              else Some (set_client s t UUnlock)
  | UDisable => Some (set_client (set_counter s (value s) false) t UJoin)
  | UJoin => match reader s with TEnded => Some (set_client (set_reader s TNone) t UUnlock) | _ => None end
  | UUnlock => Some (say (set_client (set_em s false) t CIdle) (VUnset t))
  | ELock l => if im_locked s then None
               else if is_set s then Some (say (set_client (set_im s true) t EIn) (VSimulated l)) else Some (set_client s t CIdle)
  | EIn => Some (set_client (set_im s false) t CIdle)
  | PMore => Some (one_more (set_client s t CIdle))
  end.

Definition enter (c : scall) : cpc := match c with SetCallback => SLock | UnsetCallback => ULock | Simulate l => ELock l | More => PMore end.

Inductive slabel :=
| Typed (l : str)               (* the user ends the line: Enter, or Ctrl+C with the empty text *)
| Reader                        (* a step of the reading thread *)
| Nested (c : ncall)            (* the callback that the reading thread is calling calls a function of its handler *)
| Ignore (b : bool)             (* set_ignore_input *)
| Call (t : nat) (c : scall)
| Run (t : nat).

Definition sstep (s : sstate) (l : slabel) : option sstate :=
  match l with
  | Typed l => match reader s with TRead => Some (say (set_reader s (TLine l)) (VTyped l)) | _ => None end
  | Reader => reader_step s
  | Nested c => match reader s with
                | TIn l => Some (match c with NMore => one_more s | NSet => set_reader s (TNest true l) | NUnset => set_reader s (TNest false l) end)
                | _ => None
                end
  | Ignore b => Some (set_ignoring s b)
  | Call t c => match nth_error (clients s) t with Some CIdle => Some (set_client s t (enter c)) | _ => None end
  | Run t => match nth_error (clients s) t with Some p => cstep s t p | None => None end
  end.

Fixpoint ssteps (s : sstate) (ls : list slabel) : option sstate :=
  match ls with
  | [] => Some s
  | l :: ls' => match sstep s l with Some s' => ssteps s' ls' | None => None end
  end.

(** ** Several handlers *)
(** the reading threads of several handlers call set_terminal_mode_, each with true and false in turns; [active]: those whose last call was with true *)
Record terminals := { shared : terminal; active : list nat }.
Definition mode_step (x : terminals) (h : nat) : terminals :=
  if existsb (Nat.eqb h) (active x) then {| shared := set_terminal_mode (shared x) false; active := filter (fun i => negb (Nat.eqb h i)) (active x) |}
  else {| shared := set_terminal_mode (shared x) true; active := h :: active x |}.
(** [hs]: whose turn it is *)
Definition modes (f : N) (hs : list nat) : terminals := fold_left mode_step hs {| shared := {| flags := f; oldt := 0%N |}; active := [] |}.
