(** A line editor as seen by its user: a text with a cursor and a browsable history. *)
From Verif Require Export History_spec.
From Coq Require Import ZArith.
From Verif Require Import Str History_model Editor_model.

Inductive key :=
| KChar (c : ascii) | KBackspace | KDelete | KLeft | KRight | KHome | KEnd
| KPrevious | KNext | KInsert | KEnter (ignore : bool) | KCtrlC.

(** [before] reversed, [after]: the text on each side of the cursor; [nexts]: times
    KNext was pressed while no command had been stored *)
Record desk := { before : str; after : str; past : browser; nexts : nat }.

Definition desk_init : desk := {| before := []; after := []; past := browser_init; nexts := 0 |}.

Definition text (d : desk) : str := rev (before d) ++ after d.

Definition put (d : desk) (b a : str) : desk := {| before := b; after := a; past := past d; nexts := nexts d |}.

Definition no_past (d : desk) : bool :=
  match older (past d), newer (past d) with [], [] => true | _, _ => false end.

(** the delivered line, if any, and the new state; [None]: the program fails *)
Definition desk_step (d : desk) (k : key) : option (option str * desk) :=
  match k with
  | KChar c => Some (None, put d (c :: before d) (after d))
  | KBackspace => Some (None, match before d with [] => d | _ :: b => put d b (after d) end)
  | KDelete => Some (None, match after d with [] => d | _ :: a => put d (before d) a end)
  | KLeft => Some (None, match before d with [] => d | c :: b => put d b (c :: after d) end)
  | KRight => Some (None, match after d with [] => d | c :: a => put d (c :: before d) a end)
  | KHome => Some (None, put d [] (text d))
  | KEnd => Some (None, put d (rev (text d)) [])
  | KInsert => Some (None, d)
  | KPrevious =>
      match browser_step (past d) HPrev with
      | (Some (c :: l), p) => Some (None, {| before := rev (c :: l); after := []; past := p; nexts := nexts d |})
      | (_, p) => Some (None, {| before := before d; after := after d; past := p; nexts := nexts d |})
      end
  | KNext =>
      if no_past d then
        if nexts d =? 0 then Some (None, {| before := []; after := []; past := past d; nexts := 1 |}) else None
      else
        match browser_step (past d) HNext with
        | (Some l, p) => Some (None, {| before := rev l; after := []; past := p; nexts := nexts d |})
        | (None, p) => None
        end
  | KEnter ignore =>
      let p := if ignore then past d else snd (browser_step (past d) (HAdd (text d))) in
      Some (Some (text d), {| before := []; after := []; past := p; nexts := nexts d |})
  | KCtrlC => Some (Some [], put d [] [])
  end.

Fixpoint desk_run (d : desk) (ks : list key) : option (list str * desk) :=
  match ks with
  | [] => Some ([], d)
  | k :: rest =>
      match desk_step d k with
      | None => None
      | Some (o, d') =>
          match desk_run d' rest with
          | None => None
          | Some (ls, d'') => Some (match o with Some l => l :: ls | None => ls end, d'')
          end
      end
  end.

(** what a terminal sends for each key *)
Definition esc (x : string) : str := ascii_of_nat 27 :: s x.

Inductive typed : key -> str -> Prop :=
| ty_char : forall c, ~ In c (map ascii_of_nat [27; 10; 13; 8; 127; 3]) -> typed (KChar c) [c]
| ty_back : forall c, In c (map ascii_of_nat [8; 127]) -> typed KBackspace [c]
| ty_delete : typed KDelete (esc "[3~")
| ty_left : typed KLeft (esc "[D")
| ty_right : typed KRight (esc "[C")
| ty_home : typed KHome (esc "[H")
| ty_end : typed KEnd (esc "[F")
| ty_up : typed KPrevious (esc "[A")
| ty_pgup : typed KPrevious (esc "[5~")
| ty_down : typed KNext (esc "[B")
| ty_pgdn : typed KNext (esc "[6~")
| ty_insert : typed KInsert (esc "[2~")
| ty_enter : forall c ig, In c (map ascii_of_nat [10; 13]) -> typed (KEnter ig) [c]
| ty_ctrl_c : typed KCtrlC [ascii_of_nat 3].

(** [evs] are the bytes of the keys [ks], on terminals of positive width *)
Inductive typing : list key -> list event -> Prop :=
| tg_nil : typing [] []
| tg_cons : forall k bytes ks evs0 evs,
    typed k bytes -> map ch evs0 = bytes -> Forall (fun ev => (0 < width ev)%Z) evs0 ->
    (forall ig, k = KEnter ig -> Forall (fun ev => ignoring ev = ig) evs0) ->
    typing ks evs -> typing (k :: ks) (evs0 ++ evs).
