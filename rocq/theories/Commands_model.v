(** Model of the life of a command reader,
    cpp_utils/include/cpp_utils/user_interface/CommandReader.hpp:48-120 and impl/CommandReader.ipp:22-52, :90-95:
    its constructor and destructor, the thread of its StdinEventHandler and any number of threads that
    read commands.

    - The handler of the standard input is as in Stdin_model, without what does not matter here: its
      callback is set by the constructor and unset by the destructor only.  Fewer than 2^32 lines are
      requested and not read yet (C87), so its counter is a natural number.
    - The queue of commands is as C29 and C30 prove: produce adds an element, then counts it, and
      consume waits for a counted element, uncounts it, then takes the oldest element.
    - A command reader is destroyed when no thread is inside read_next_command, as any object. *)
From Verif Require Export Str Threads.

(** where the thread of the handler is *)
Inductive tpc :=
| TWait                 (* StdinEventHandler.cpp:272, :566 *)
| TRead                 (* :304: the line is being read *)
| TLine (l : str)       (* :518 or :548, EventHandler.ipp:182 *)
| TPush (l : str)       (* CommandReader.ipp:94, ConsumerWaitHandler.ipp:46 or :54: the line is added to the queue of commands *)
| TCount                (* ConsumerWaitHandler.ipp:47 or :55: ... and counted *)
| TRet                  (* EventHandler.ipp:202 *)
| TEnded
| TBroken.              (* it used the queue when it was already destroyed *)

(** where a thread that reads commands is: read_next_command, CommandReader.ipp:44, :45 with ConsumerWaitHandler.ipp:62, :75 *)
Inductive rpc := RIdle | RMore | RConsume | RTake.

(** where the thread that constructs and destroys the reader is *)
Inductive opc :=
| OBuild                (* CommandReader.ipp:35: the handler exists, the queue does not *)
| OLive
| ODrop                 (* CommandReader.hpp:109: members are destroyed in the reverse order: the queue first *)
| OClear | ODisable | OJoin  (* StdinEventHandler.cpp:205-208: EventHandler.ipp:88-102, StdinEventHandler.cpp:580, :581 *)
| OGone.

Inductive revent :=
| VCall (t : nat)               (* read_next_command is called *)
| VExtra                        (* stdin_handler().read_one_more_line() is called, CommandReader.hpp:115 *)
| VBegin                        (* a line starts to be read *)
| VTyped (l : str)              (* the user ends it *)
| VDropped (l : str)            (* the handler has no callback for it *)
| VCommand (t : nat) (l : str)  (* read_next_command gets its line *)
| VDestroying | VGone           (* the destructor is called, returns *)
| VDangling.                    (* use of a destroyed object *)

Record rstate := {
  value : nat;             (* activation_times_ of the handler *)
  enabled : bool;
  is_set : bool;           (* is_callback_set_ *)
  im_locked : bool;        (* internal_callback_mutex_ *)
  thread : tpc;
  exists_queue : bool;     (* commands_read_ exists *)
  queue : list str;        (* the elements of commands_read_ *)
  ready : nat;             (* its counter *)
  owner : opc;
  readers : list rpc;
  history : list revent }. (* newest first *)

(** after CommandReader.ipp:27-34 *)
Definition rinit (n : nat) : rstate :=
  {| value := 0; enabled := true; is_set := true; im_locked := false; thread := TWait; exists_queue := false; queue := []; ready := 0; owner := OBuild;
     readers := repeat RIdle n; history := [] |}.

Definition set_handler (x : rstate) (v : nat) (e b : bool) := {| value := v; enabled := e; is_set := b; im_locked := im_locked x; thread := thread x; exists_queue := exists_queue x; queue := queue x; ready := ready x; owner := owner x; readers := readers x; history := history x |}.
Definition set_thread (x : rstate) (p : tpc) (b : bool) := {| value := value x; enabled := enabled x; is_set := is_set x; im_locked := b; thread := p; exists_queue := exists_queue x; queue := queue x; ready := ready x; owner := owner x; readers := readers x; history := history x |}.
Definition set_queue (x : rstate) (q : list str) (n : nat) := {| value := value x; enabled := enabled x; is_set := is_set x; im_locked := im_locked x; thread := thread x; exists_queue := exists_queue x; queue := q; ready := n; owner := owner x; readers := readers x; history := history x |}.
Definition set_owner (x : rstate) (p : opc) (b : bool) := {| value := value x; enabled := enabled x; is_set := is_set x; im_locked := im_locked x; thread := thread x; exists_queue := b; queue := queue x; ready := ready x; owner := p; readers := readers x; history := history x |}.
Definition set_reader (x : rstate) (t : nat) (p : rpc) := {| value := value x; enabled := enabled x; is_set := is_set x; im_locked := im_locked x; thread := thread x; exists_queue := exists_queue x; queue := queue x; ready := ready x; owner := owner x; readers := upd (readers x) t p; history := history x |}.
Definition say (x : rstate) (e : revent) := {| value := value x; enabled := enabled x; is_set := is_set x; im_locked := im_locked x; thread := thread x; exists_queue := exists_queue x; queue := queue x; ready := ready x; owner := owner x; readers := readers x; history := e :: history x |}.

(** a step of the thread of the handler, except the one that needs the user *)
Definition thread_step (x : rstate) : option rstate :=
  match thread x with
  | TRead | TEnded | TBroken => None
  | TWait => if enabled x then match value x with 0 => None | S v => Some (say (set_thread (set_handler x v true (is_set x)) TRead (im_locked x)) VBegin) end
             else Some (set_thread x TEnded (im_locked x))
  | TLine l => if im_locked x then None
               else if is_set x then Some (set_thread x (TPush l) true) else Some (say (set_thread x TWait false) (VDropped l))
  | TPush l => if exists_queue x then Some (set_thread (set_queue x (queue x ++ [l]) (ready x)) TCount true)
               else Some (say (set_thread x TBroken true) VDangling)
  | TCount => if exists_queue x then Some (set_thread (set_queue x (queue x) (S (ready x))) TRet true)
              else Some (say (set_thread x TBroken true) VDangling)
  | TRet => Some (set_thread x TWait false)
  end.

(** a step of the thread [t] inside read_next_command *)
Definition read_step (x : rstate) (t : nat) (p : rpc) : option rstate :=
  match p with
  | RIdle => None
  | RMore => Some (set_reader (set_handler x (S (value x)) (enabled x) (is_set x)) t RConsume)
  | RConsume => match ready x with 0 => None | S n => Some (set_reader (set_queue x (queue x) n) t RTake) end
  | RTake => match queue x with [] => None | l :: q => Some (say (set_reader (set_queue x q (ready x)) t RIdle) (VCommand t l)) end
  end.

(** a step of the thread that constructs and destroys *)
Definition owner_step (x : rstate) : option rstate :=
  match owner x with
  | OLive | OGone => None
  | OBuild => Some (set_owner (set_queue x [] 0) OLive true)
  | ODrop => Some (set_owner x OClear false)
  | OClear => if im_locked x then None else Some (set_owner (set_handler x (value x) (enabled x) false) ODisable (exists_queue x))
  | ODisable => Some (set_owner (set_handler x (value x) false (is_set x)) OJoin (exists_queue x))
  | OJoin => match thread x with TEnded => Some (say (set_owner x OGone (exists_queue x)) VGone) | _ => None end
  end.

Definition idle (p : rpc) : bool := match p with RIdle => true | _ => false end.

Inductive rlabel :=
| Typed (l : str)     (* the user ends the line *)
| Thread
| Call (t : nat)      (* read_next_command *)
| Extra               (* stdin_handler().read_one_more_line() *)
| Run (t : nat)
| Destroy
| Owner.

Definition rstep (x : rstate) (a : rlabel) : option rstate :=
  match a with
  | Typed l => match thread x with TRead => Some (say (set_thread x (TLine l) (im_locked x)) (VTyped l)) | _ => None end
  | Thread => thread_step x
  | Call t => match owner x, nth_error (readers x) t with OLive, Some RIdle => Some (say (set_reader x t RMore) (VCall t)) | _, _ => None end
  | Extra => match owner x with OLive => Some (say (set_handler x (S (value x)) (enabled x) (is_set x)) VExtra) | _ => None end
  | Run t => match nth_error (readers x) t with Some p => read_step x t p | None => None end
  | Destroy => match owner x with OLive => if forallb idle (readers x) then Some (say (set_owner x ODrop (exists_queue x)) VDestroying) else None | _ => None end
  | Owner => owner_step x
  end.

Fixpoint rsteps (x : rstate) (ls : list rlabel) : option rstate :=
  match ls with
  | [] => Some x
  | a :: ls' => match rstep x a with Some x' => rsteps x' ls' | None => None end
  end.
