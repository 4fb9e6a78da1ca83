(** Log event handlers: cpp_utils/src/cpp/event/logging/LogEventHandler.cpp, LogSevereEventHandler.cpp and
    LogConsumerConnection.cpp, cpp_utils/include/cpp_utils/event/LogEventHandler.hpp, on top of EventHandler.ipp
    and of the log of Fast DDS, which is external: its thread takes the queued entries one by one and gives each
    to the registered consumer.

    One handler is modelled, from its construction to its destruction by one thread; that thread may set and unset
    the callback in between, so [event_mutex_] is never contended.  The other threads log entries and create
    other severe handlers. *)
From Coq Require Export List Bool Arith Lia.
Export ListNotations.

(** Log::Kind of Fast DDS (external): smaller is more severe *)
Inductive kind := Error | Warning | Info.
Definition rank (k : kind) : nat := match k with Error => 0 | Warning => 1 | Info => 2 end.
(** [a <= b] for kinds *)
Definition kle (a b : kind) : bool := rank a <=? rank b.
(** an entry: its kind and its text, abstracted to a number *)
Record entry := { level : kind; text : nat }.

(** the class of the handler: LogEventHandler with a callback, LogEventHandler.cpp:44-50, or
    LogSevereEventHandler with a threshold, LogSevereEventHandler.cpp:26-37 *)
Inductive class := PlainHandler | SevereHandler (threshold : kind).

(** the thread that owns the handler *)
Inductive opc :=
| OConnect     (* LogEventHandler.cpp:31-38: connection_callback_ is constructed *)
| OStorage     (* entries_consumed_ is constructed: declared after connection_callback_, LogEventHandler.hpp:98-105 *)
| ORegister    (* :41 *)
| OSetLock (b : bool)   (* EventHandler.ipp:52-57, set_callback; [b]: in the constructor, LogEventHandler.cpp:49 *)
| OSetIn (b : bool)     (* EventHandler.ipp:59-66 *)
| OVtable      (* the constructor of LogEventHandler has returned: from now on virtual calls go to LogSevereEventHandler *)
| OThreshold   (* LogSevereEventHandler.cpp:30: threshold_ is initialised *)
| OVerbosity   (* :33-36; the constructor returns, of either class *)
| OLive        (* the constructor has returned *)
| OUnsetTest (b : bool) (* EventHandler.ipp:88, unset_callback; [b]: in the destructor, LogEventHandler.cpp:54 *)
| OUnsetLock (b : bool) (* :92 *)
| OUnsetIn (b : bool)   (* :94-102 *)
| OUnvtable    (* the implicit destructor of LogSevereEventHandler: virtual calls go to LogEventHandler again *)
| ODropStorage (* the members are destroyed in reverse order of declaration: first entries_consumed_ *)
| ORelease     (* ... then connection_callback_: waits until no guard holds it, owner_ptr *)
| ODropBase    (* then EventHandler with its mutexes *)
| OGone.

(** the thread of the log *)
Inductive lpc :=
| LIdle
| LLease (e : entry)    (* LogConsumerConnection.cpp:40: lock of the lessee *)
| LDispatch (e : entry) (* :42-47 and the lambda, LogEventHandler.cpp:34-38: the guard is held, virtual call of consume_ *)
| LStore (e : entry)    (* LogEventHandler.cpp:60-63 *)
| LEventLock (e : entry)(* EventHandler.ipp:182 *)
| LEventIn (e : entry)  (* :184 *)
| LIn (e : entry)       (* in the callback, :186 *)
| LBroken.              (* after undefined behaviour *)

Inductive levent :=
| VConnected
| VRegistered
| VSet          (* a callback was set *)
| VUnset        (* unset_callback is about to return *)
| VConstructed
| VHidden (e : entry)   (* an entry is logged and discarded because of the verbosity *)
| VQueued (e : entry)   (* an entry is logged and queued *)
| VTaken (e : entry)    (* the log gives the entry to the consumer *)
| VStored (e : entry)   (* it is added to the entries consumed *)
| VCalled (e : entry)
| VReturned
| VDestroying
| VStorageGone
| VReleased     (* the connection was destroyed *)
| VDestroyed
| VDangling     (* an entry is stored in a vector that was destroyed: undefined behaviour *)
| VIndeterminate. (* the threshold is read before it has a value: undefined behaviour *)

Record lstate := {
  owner : opc; logger : lpc;
  virtual : class;            (* where virtual calls go *)
  threshold_of : option kind; (* threshold_, None before it is initialised *)
  storage : bool;             (* entries_consumed_ exists *)
  entries : list entry;
  connected : bool;           (* the object of connection_callback_ exists *)
  registered : bool;          (* the consumer is registered in the log *)
  im_locked : bool;           (* internal_callback_mutex_ *)
  is_set : bool;              (* is_callback_set_ *)
  count : nat;                (* number_of_events_registered_ without its bound *)
  verbosity : kind;           (* of the log: global *)
  queue : list entry;         (* of the log *)
  history : list levent
}.

Definition linit (v : kind) : lstate :=
  {| owner := OConnect; logger := LIdle; virtual := PlainHandler; threshold_of := None; storage := false; entries := [];
     connected := false; registered := false; im_locked := false; is_set := false; count := 0; verbosity := v; queue := []; history := [] |}.

Definition go (x : lstate) (p : opc) : lstate :=
  {| owner := p; logger := logger x; virtual := virtual x; threshold_of := threshold_of x; storage := storage x; entries := entries x;
     connected := connected x; registered := registered x; im_locked := im_locked x; is_set := is_set x; count := count x; verbosity := verbosity x; queue := queue x; history := history x |}.
Definition log_go (x : lstate) (p : lpc) : lstate :=
  {| owner := owner x; logger := p; virtual := virtual x; threshold_of := threshold_of x; storage := storage x; entries := entries x;
     connected := connected x; registered := registered x; im_locked := im_locked x; is_set := is_set x; count := count x; verbosity := verbosity x; queue := queue x; history := history x |}.
Definition say (x : lstate) (e : levent) : lstate :=
  {| owner := owner x; logger := logger x; virtual := virtual x; threshold_of := threshold_of x; storage := storage x; entries := entries x;
     connected := connected x; registered := registered x; im_locked := im_locked x; is_set := is_set x; count := count x; verbosity := verbosity x; queue := queue x; history := e :: history x |}.
Definition set_object (x : lstate) (v : class) (k : option kind) : lstate :=
  {| owner := owner x; logger := logger x; virtual := v; threshold_of := k; storage := storage x; entries := entries x;
     connected := connected x; registered := registered x; im_locked := im_locked x; is_set := is_set x; count := count x; verbosity := verbosity x; queue := queue x; history := history x |}.
Definition set_storage (x : lstate) (b : bool) (l : list entry) : lstate :=
  {| owner := owner x; logger := logger x; virtual := virtual x; threshold_of := threshold_of x; storage := b; entries := l;
     connected := connected x; registered := registered x; im_locked := im_locked x; is_set := is_set x; count := count x; verbosity := verbosity x; queue := queue x; history := history x |}.
Definition set_connection (x : lstate) (c r : bool) : lstate :=
  {| owner := owner x; logger := logger x; virtual := virtual x; threshold_of := threshold_of x; storage := storage x; entries := entries x;
     connected := c; registered := r; im_locked := im_locked x; is_set := is_set x; count := count x; verbosity := verbosity x; queue := queue x; history := history x |}.
Definition set_event (x : lstate) (l b : bool) (n : nat) : lstate :=
  {| owner := owner x; logger := logger x; virtual := virtual x; threshold_of := threshold_of x; storage := storage x; entries := entries x;
     connected := connected x; registered := registered x; im_locked := l; is_set := b; count := n; verbosity := verbosity x; queue := queue x; history := history x |}.
Definition set_log (x : lstate) (v : kind) (q : list entry) : lstate :=
  {| owner := owner x; logger := logger x; virtual := virtual x; threshold_of := threshold_of x; storage := storage x; entries := entries x;
     connected := connected x; registered := registered x; im_locked := im_locked x; is_set := is_set x; count := count x; verbosity := v; queue := q; history := history x |}.

(** whether the thread of the log holds a guard of the connection *)
Definition guarding (p : lpc) : bool := match p with LDispatch _ | LStore _ | LEventLock _ | LEventIn _ | LIn _ => true | _ => false end.

(** LogSevereEventHandler.cpp:33-36 *)
Definition raise_verbosity (x : lstate) (threshold : kind) : lstate :=
  if kle threshold Error then x else set_log x threshold (queue x).

(** construction, set_callback, unset_callback and destruction *)
Definition run (cl : class) (x : lstate) : option lstate :=
  match owner x with
  | OConnect => Some (say (go (set_connection x true false) OStorage) VConnected)
  | OStorage => Some (go (set_storage x true []) ORegister)
  | ORegister => Some (say (go (set_connection x (connected x) true) (OSetLock true)) VRegistered)
  | OSetLock b => if im_locked x then None else Some (go (set_event x true (is_set x) (count x)) (OSetIn b))
  | OSetIn b =>
      let x' := say (set_event x false true (count x)) VSet in
      Some (if b then go x' (match cl with PlainHandler => OVerbosity | SevereHandler _ => OVtable end) else go x' OLive)
  | OVtable => Some (go (set_object x cl (threshold_of x)) OThreshold)
  | OThreshold => Some (go (set_object x (virtual x) (match cl with SevereHandler k => Some k | PlainHandler => None end)) OVerbosity)
  | OVerbosity => Some (say (go (match cl with SevereHandler k => raise_verbosity x k | PlainHandler => x end) OLive) VConstructed)
  | OLive => None
  | OUnsetTest b => Some (if is_set x then go x (OUnsetLock b) else say (go x (if b then ODropStorage else OLive)) VUnset)
  | OUnsetLock b => if im_locked x then None else Some (go (set_event x true (is_set x) (count x)) (OUnsetIn b))
  | OUnsetIn b => Some (say (go (set_event x false false (count x)) (if b then ODropStorage else OLive)) VUnset)
  | OUnvtable => Some (go (set_object x PlainHandler (threshold_of x)) (OUnsetTest true))
  | ODropStorage => Some (say (go (set_storage x false []) ORelease) VStorageGone)
  | ORelease => if guarding (logger x) then None else Some (say (go (set_connection x false (registered x)) ODropBase) VReleased)
  | ODropBase => Some (say (go x OGone) VDestroyed)
  | OGone => None
  end.

(** consume_ of the two classes: LogEventHandler.cpp:57-66, LogSevereEventHandler.cpp:39-46 *)
Definition dispatch (x : lstate) (e : entry) : lstate :=
  match virtual x with
  | PlainHandler => log_go x (LStore e)
  | SevereHandler _ =>
      match threshold_of x with
      | None => say (log_go x LBroken) VIndeterminate
      | Some k => log_go x (if kle (level e) k then LStore e else LIdle)
      end
  end.

(** the thread of the log inside LogConsumerConnection::Consume, LogConsumerConnection.cpp:36-49 *)
Definition consume (x : lstate) : option lstate :=
  match logger x with
  | LIdle => None
  | LLease e => Some (log_go x (if connected x then LDispatch e else LIdle))
  | LDispatch e => Some (dispatch x e)
  | LStore e => Some (if storage x then say (log_go (set_storage x true (entries x ++ [e])) (LEventLock e)) (VStored e) else say (log_go x LBroken) VDangling)
  | LEventLock e => if im_locked x then None else Some (log_go (set_event x true (is_set x) (count x)) (LEventIn e))
  | LEventIn e => Some (if is_set x then say (log_go x (LIn e)) (VCalled e) else log_go (set_event x false (is_set x) (count x)) LIdle)
  | LIn e => Some (say (log_go (set_event x false (is_set x) (S (count x))) LIdle) VReturned)
  | LBroken => None
  end.

Inductive llabel :=
| Log (e : entry)      (* some thread logs an entry; the macros of the log discard it if the verbosity is lower *)
| Take                 (* the thread of the log takes the next entry *)
| Consume              (* it goes on *)
| Run                  (* the owner goes on *)
| SetCallback | UnsetCallback | Destroy  (* the owner calls *)
| Other (k : kind).    (* a thread constructs another LogSevereEventHandler *)

Definition lstep (cl : class) (x : lstate) (l : llabel) : option lstate :=
  match l with
  | Log e => Some (if kle (level e) (verbosity x) then say (set_log x (verbosity x) (queue x ++ [e])) (VQueued e) else say x (VHidden e))
  | Take =>
      match logger x, queue x with
      | LIdle, e :: q => Some (if registered x then say (log_go (set_log x (verbosity x) q) (LLease e)) (VTaken e) else set_log x (verbosity x) q)
      | _, _ => None
      end
  | Consume => consume x
  | Run => run cl x
  | SetCallback => match owner x with OLive => Some (go x (OSetLock false)) | _ => None end
  | UnsetCallback => match owner x with OLive => Some (go x (OUnsetTest false)) | _ => None end
  | Destroy => match owner x with OLive => Some (say (go x (match cl with PlainHandler => OUnsetTest true | SevereHandler _ => OUnvtable end)) VDestroying) | _ => None end
  | Other k => Some (raise_verbosity x k)
  end.

Fixpoint lsteps (cl : class) (x : lstate) (ls : list llabel) : option lstate :=
  match ls with
  | [] => Some x
  | l :: ls' => match lstep cl x l with Some x' => lsteps cl x' ls' | None => None end
  end.
