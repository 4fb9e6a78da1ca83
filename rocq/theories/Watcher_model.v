(** Model of cpp_utils/src/cpp/event/FileWatcherHandler.cpp with its dependency
    thirdparty/filewatch/FileWatch.hpp, for Linux.  First the functions on paths, then a transition
    system: one handler, the two threads of its watcher, the kernel and any number of threads of the
    program.

    - The kernel (inotify, stat) is part of the environment: it may report any sequence of events
      while a watch exists, and the directory may be removed.  The queue of the kernel does not
      overflow.  Names reported by the kernel are not empty.
    - The parts of EventHandler that matter here, EventHandler.ipp:48-118 and :177-202, are as in
      Periodic_model: event_mutex_, internal_callback_mutex_ and is_callback_set_.  What
      set_callback and unset_callback do with internal_callback_mutex_ locked is one step, possible
      when it is free.  The callback called by the watcher may call set_callback and unset_callback
      of its own handler, [Nested].
    - Log messages are left out.  The destructor is unset_callback, FileWatcherHandler.cpp:50-53. *)
From Verif Require Export Str Threads.

(** ** Paths *)
Definition slash : ascii := ascii_of_nat 47.

(** FileWatch.hpp:298-307: everything up to the last slash, and the rest *)
Fixpoint split_path (p : str) : str * str :=
  match p with
  | [] => ([], [])
  | c :: p' => let (d, f) := split_path p' in
               match d with
               | [] => if Ascii.eqb c slash then ([c], f) else ([], c :: f)
               | _ => (c :: d, f)
               end
  end.
(** split_directory_and_file, FileWatch.hpp:286-309 *)
Definition split_directory_and_file (p : str) : str * str :=
  let (d, f) := split_path p in (match d with [] => [ascii_of_nat 46; slash] | _ => d end, f).

(** what is watched *)
Record target := { single : bool; filename : str; directory : str }.

(** get_directory, FileWatch.hpp:505-549: the result, and how many descriptors are left open.
    [init]: inotify_init succeeds; [stat p]: whether [p] is a regular file, [None] if stat fails;
    [add d]: inotify_add_watch succeeds *)
Definition get_directory (init : bool) (stat : str -> option bool) (add : str -> bool) (path : str) : option target * nat :=
  if init then
    match stat path with
    | None => (None, 1)
    | Some regular =>
        let t := if regular then let (d, f) := split_directory_and_file path in {| single := true; filename := f; directory := d |}
                 else {| single := false; filename := []; directory := path |} in
        if add (directory t) then (Some t, 1) else (None, 1)
    end
  else (None, 0).

(** FileWatch.hpp:106, :320: [.*] matches every text without line terminators *)
Definition regex_all (p : str) : bool := forallb (fun c => negb (Ascii.eqb c (ascii_of_nat 10) || Ascii.eqb c (ascii_of_nat 13))) p.
(** pass_filter, FileWatch.hpp:311-321 *)
Definition pass_filter (t : target) (file_path : str) : bool :=
  if single t then str_eqb (snd (split_directory_and_file file_path)) (filename t) else regex_all file_path.

(** ** Threads *)
Inductive kind := Added | Removed | Modified.
(** an event in the queue of the kernel; IN_IGNORED, the last of a watch, has no name *)
Inductive kev := KEvent (k : kind) (name : str) | KIgnored.

(** FileWatch.hpp:563-586 *)
Definition parse (pass : str -> bool) (evs : list kev) : list (kind * str) :=
  flat_map (fun e => match e with KEvent k n => if pass n then [(k, n)] else [] | KIgnored => [] end) evs.

(** where the watching thread is, FileWatch.hpp:551-596 *)
Inductive wpc :=
| WNone
| WTest                           (* :556 *)
| WRead                           (* :558 *)
| WPut (l : list (kind * str))    (* :589-591 *)
| WNotify                         (* :593 *)
| WEnded.

(** where the thread that calls the callback is, FileWatch.hpp:600-630 *)
Inductive dpc :=
| DNone
| DTest                           (* :602 *)
| DLock                           (* :604 *)
| DLook                           (* :605 *)
| DPred                           (* :609 *)
| DBlock                          (* the predicate was false: about to unlock and sleep, as one step *)
| DSleep
| DWake                           (* awake, without the mutex *)
| DSwap                           (* :613-614 *)
| DRun (l : list (kind * str))    (* :616 and FileWatcherHandler.cpp:64-76, EventHandler.ipp:182 *)
| DIn (l : list (kind * str))     (* in the callback *)
| DNest (b : bool) (l : list (kind * str))  (* in the callback, in set_callback, true, or unset_callback, false *)
| DSelf                           (* in unset_callback called by the callback: FileWatch.hpp:277 *)
| DEnded.

(** where a thread of the program is *)
Inductive cpc :=
| CIdle
(* set_callback: EventHandler.ipp:52, :57-66, FileWatcherHandler.cpp:99-102, EventHandler.ipp:79 *)
| SLock | SSet | SStart | SUnlock
(* unset_callback: EventHandler.ipp:84, :88-102, FileWatcherHandler.cpp:107, FileWatch.hpp:269, :274, :276, :277, :278-282,
   FileWatcherHandler.cpp:92, EventHandler.ipp:118 *)
| ULock | UClear | UStop | URemove | UNotify | UJoinW | UJoinD | UFlag | UUnlock
(* simulate_event_occurred: EventHandler.ipp:182, in the callback *)
| ELock | EIn.

Inductive wcall := SetCallback | UnsetCallback | Simulate.

Inductive wevent :=
| VSetting (t : nat)      (* is_callback_set_ becomes true *)
| VSet (t : nat)          (* set_callback returns *)
| VUnset (t : nat)        (* unset_callback returns *)
| VCreated                (* the watcher is created *)
| VFailed                 (* its creation throws *)
| VReported (n : str)     (* the kernel queues a modification of a file that passes the filter *)
| VCalled (n : str)       (* the watcher calls the callback *)
| VReturned               (* ... which returns *)
| VSimulated (t : nat)    (* simulate_event_occurred calls the callback *)
| VTerminate.             (* a thread joins itself in a destructor: std::terminate *)

Record wstate := {
  destroyed : bool;             (* _destory *)
  watch : bool;                 (* the kernel has a watch *)
  kqueue : list kev;            (* events to be read *)
  cm_locked : bool;             (* _callback_mutex *)
  info : list (kind * str);     (* _callback_information *)
  watching : wpc;
  calling : dpc;
  em_locked : bool;             (* event_mutex_ *)
  im_locked : bool;             (* internal_callback_mutex_ *)
  is_set : bool;                (* is_callback_set_ *)
  started : bool;               (* filewatcher_started_ *)
  clients : list cpc;
  history : list wevent }.      (* newest first *)

Definition winit (n : nat) : wstate :=
  {| destroyed := false; watch := false; kqueue := []; cm_locked := false; info := []; watching := WNone; calling := DNone;
     em_locked := false; im_locked := false; is_set := false; started := false; clients := repeat CIdle n; history := [] |}.

Definition set_destroyed (s : wstate) (b : bool) := {| destroyed := b; watch := watch s; kqueue := kqueue s; cm_locked := cm_locked s; info := info s; watching := watching s; calling := calling s; em_locked := em_locked s; im_locked := im_locked s; is_set := is_set s; started := started s; clients := clients s; history := history s |}.
Definition set_kernel (s : wstate) (w : bool) (q : list kev) := {| destroyed := destroyed s; watch := w; kqueue := q; cm_locked := cm_locked s; info := info s; watching := watching s; calling := calling s; em_locked := em_locked s; im_locked := im_locked s; is_set := is_set s; started := started s; clients := clients s; history := history s |}.
Definition set_info (s : wstate) (i : list (kind * str)) := {| destroyed := destroyed s; watch := watch s; kqueue := kqueue s; cm_locked := cm_locked s; info := i; watching := watching s; calling := calling s; em_locked := em_locked s; im_locked := im_locked s; is_set := is_set s; started := started s; clients := clients s; history := history s |}.
Definition set_watching (s : wstate) (p : wpc) := {| destroyed := destroyed s; watch := watch s; kqueue := kqueue s; cm_locked := cm_locked s; info := info s; watching := p; calling := calling s; em_locked := em_locked s; im_locked := im_locked s; is_set := is_set s; started := started s; clients := clients s; history := history s |}.
Definition set_calling (s : wstate) (p : dpc) (b : bool) := {| destroyed := destroyed s; watch := watch s; kqueue := kqueue s; cm_locked := b; info := info s; watching := watching s; calling := p; em_locked := em_locked s; im_locked := im_locked s; is_set := is_set s; started := started s; clients := clients s; history := history s |}.
Definition set_em (s : wstate) (b : bool) := {| destroyed := destroyed s; watch := watch s; kqueue := kqueue s; cm_locked := cm_locked s; info := info s; watching := watching s; calling := calling s; em_locked := b; im_locked := im_locked s; is_set := is_set s; started := started s; clients := clients s; history := history s |}.
Definition set_im (s : wstate) (b : bool) := {| destroyed := destroyed s; watch := watch s; kqueue := kqueue s; cm_locked := cm_locked s; info := info s; watching := watching s; calling := calling s; em_locked := em_locked s; im_locked := b; is_set := is_set s; started := started s; clients := clients s; history := history s |}.
Definition set_set (s : wstate) (b : bool) := {| destroyed := destroyed s; watch := watch s; kqueue := kqueue s; cm_locked := cm_locked s; info := info s; watching := watching s; calling := calling s; em_locked := em_locked s; im_locked := im_locked s; is_set := b; started := started s; clients := clients s; history := history s |}.
Definition set_started (s : wstate) (b : bool) := {| destroyed := destroyed s; watch := watch s; kqueue := kqueue s; cm_locked := cm_locked s; info := info s; watching := watching s; calling := calling s; em_locked := em_locked s; im_locked := im_locked s; is_set := is_set s; started := b; clients := clients s; history := history s |}.
Definition set_client (s : wstate) (t : nat) (p : cpc) := {| destroyed := destroyed s; watch := watch s; kqueue := kqueue s; cm_locked := cm_locked s; info := info s; watching := watching s; calling := calling s; em_locked := em_locked s; im_locked := im_locked s; is_set := is_set s; started := started s; clients := upd (clients s) t p; history := history s |}.
Definition say (s : wstate) (e : wevent) := {| destroyed := destroyed s; watch := watch s; kqueue := kqueue s; cm_locked := cm_locked s; info := info s; watching := watching s; calling := calling s; em_locked := em_locked s; im_locked := im_locked s; is_set := is_set s; started := started s; clients := clients s; history := e :: history s |}.

(** inotify_rm_watch, or the directory is removed: the kernel queues IN_IGNORED *)
Definition remove_watch (s : wstate) : wstate := if watch s then set_kernel s false (kqueue s ++ [KIgnored]) else s.
(** _cv.notify_all() *)
Definition notify (s : wstate) : wstate := match calling s with DSleep => set_calling s DWake (cm_locked s) | _ => s end.
(** a new FileWatch, FileWatch.hpp:91-101, :219-265 *)
Definition new_watcher (s : wstate) : wstate := set_calling (set_watching (set_info (set_kernel (set_destroyed s false) true []) []) WTest) DTest (cm_locked s).
(** the end of its destructor *)
Definition no_watcher (s : wstate) : wstate := set_calling (set_watching (set_info (set_kernel (set_destroyed s false) false []) []) WNone) DNone (cm_locked s).

(** a step of the watching thread, except read *)
Definition watch_step (s : wstate) : option wstate :=
  match watching s with
  | WNone | WEnded | WRead => None
  | WTest => Some (set_watching s (if destroyed s then WEnded else WRead))
  | WPut l => if cm_locked s then None else Some (set_watching (set_info s (info s ++ l)) WNotify)
  | WNotify => Some (set_watching (notify s) WTest)
  end.

(** a step of the thread that calls the callback *)
Definition call_step (s : wstate) : option wstate :=
  match calling s with
  | DNone | DEnded | DSleep => None
  | DTest => Some (set_calling s (if destroyed s then DEnded else DLock) (cm_locked s))
  | DLock => if cm_locked s then None else Some (set_calling s DLook true)
  | DLook => Some (set_calling s (match info s with [] => if destroyed s then DSwap else DPred | _ => DSwap end) true)
  | DPred => Some (set_calling s (match info s with [] => if destroyed s then DSwap else DBlock | _ => DSwap end) true)
  | DBlock => Some (set_calling s DSleep false)
  | DWake => if cm_locked s then None else Some (set_calling s DPred true)
  | DSwap => Some (set_info (set_calling s (DRun (info s)) false) [])
  | DRun [] => Some (set_calling s DTest (cm_locked s))
  | DRun ((Modified, n) :: l) => if im_locked s then None
                                 else if is_set s then Some (say (set_im (set_calling s (DIn l) (cm_locked s)) true) (VCalled n))
                                 else Some (set_calling s (DRun l) (cm_locked s))
  | DRun (_ :: l) => Some (set_calling s (DRun l) (cm_locked s))
  | DIn l => Some (say (set_im (set_calling s (DRun l) (cm_locked s)) false) VReturned)
  | DNest true l => if em_locked s then None else Some (set_calling s (DIn l) (cm_locked s))
  | DNest false l => if em_locked s then None else Some (remove_watch (set_destroyed (set_em (set_set (set_calling s DSelf (cm_locked s)) false) true) true))
  | DSelf => match watching s with WEnded => Some (say s VTerminate) | _ => None end
  end.

(** a step of the thread [t] of the program, which is at [p] *)
Definition cstep (s : wstate) (t : nat) (p : cpc) : option wstate :=
  match p with
  | CIdle => None
  | SLock => if em_locked s then None else Some (set_client (set_em s true) t SSet)
  | SSet => if im_locked s then None
            else if is_set s then Some (set_client s t SUnlock) else Some (say (set_client (set_set s true) t SStart) (VSetting t))
  | SStart => if started s then Some (set_client s t SUnlock) else None    (* otherwise [Start] *)
  | SUnlock => Some (say (set_client (set_em s false) t CIdle) (VSet t))
  | ULock => if em_locked s then None else Some (set_client (set_em s true) t UClear)
  | UClear => if is_set s then if im_locked s then None else Some (set_client (set_set s false) t UStop)
              else Some (set_client s t UUnlock)
  | UStop => if started s then match watching s with
                               | WNone => Some (set_client s t UFlag)
                               | _ => Some (set_client (set_destroyed s true) t URemove)
                               end
             else Some (set_client s t UUnlock)
  | URemove => Some (set_client (remove_watch s) t UNotify)
  | UNotify => Some (set_client (notify s) t UJoinW)
  | UJoinW => match watching s with WEnded => Some (set_client s t UJoinD) | _ => None end
  | UJoinD => match calling s with DEnded => Some (set_client (no_watcher s) t UFlag) | _ => None end
  | UFlag => Some (set_client (set_started s false) t UUnlock)
  | UUnlock => Some (say (set_client (set_em s false) t CIdle) (VUnset t))
  | ELock => if im_locked s then None
             else if is_set s then Some (say (set_client (set_im s true) t EIn) (VSimulated t)) else Some (set_client s t CIdle)
  | EIn => Some (set_client (set_im s false) t CIdle)
  end.

Definition enter (c : wcall) : cpc := match c with SetCallback => SLock | UnsetCallback => ULock | Simulate => ELock end.

Inductive wlabel :=
| Change (k : kind) (n : str)   (* the kernel queues an event *)
| Gone                          (* the watched directory is removed *)
| Read (m : nat)                (* read returns [m] events *)
| Watch                         (* a step of the watching thread *)
| Caller                        (* a step of the thread that calls the callback *)
| Spurious                      (* its wait ends for no reason *)
| Nested (b : bool)             (* the callback it is calling calls set_callback or unset_callback *)
| Call (t : nat) (c : wcall)
| Start (t : nat) (ok : bool)   (* FileWatcherHandler.cpp:55-86: the watcher is created, or its constructor throws *)
| Run (t : nat).

(** [pass]: the filter of the watcher *)
Definition wstep (pass : str -> bool) (s : wstate) (l : wlabel) : option wstate :=
  match l with
  | Change k n => if watch s then let s' := set_kernel s true (kqueue s ++ [KEvent k n]) in
                                  Some (match k with Modified => if pass n then say s' (VReported n) else s' | _ => s' end)
                  else None
  | Gone => if watch s then Some (remove_watch s) else None
  | Read m => match watching s with
              | WRead => if Nat.ltb 0 m && Nat.leb m (List.length (kqueue s))
                         then Some (set_watching (set_kernel s (watch s) (skipn m (kqueue s))) (WPut (parse pass (firstn m (kqueue s))))) else None
              | _ => None
              end
  | Watch => watch_step s
  | Caller => call_step s
  | Spurious => match calling s with DSleep => Some (set_calling s DWake (cm_locked s)) | _ => None end
  | Nested b => match calling s with DIn l => Some (set_calling s (DNest b l) (cm_locked s)) | _ => None end
  | Call t c => match nth_error (clients s) t with Some CIdle => Some (set_client s t (enter c)) | _ => None end
  | Start t ok => match nth_error (clients s) t with
                  | Some SStart => if started s then None
                                   else Some (set_client (set_started (if ok then say (new_watcher s) VCreated else say s VFailed) true) t SUnlock)
                  | _ => None
                  end
  | Run t => match nth_error (clients s) t with Some p => cstep s t p | None => None end
  end.

Fixpoint wsteps (pass : str -> bool) (s : wstate) (ls : list wlabel) : option wstate :=
  match ls with
  | [] => Some s
  | l :: ls' => match wstep pass s l with Some s' => wsteps pass s' ls' | None => None end
  end.
