(** Vocabulary of C120 and C121. *)
From Verif Require Export PyTools_model.
Local Open Scope Q_scope.

(** the reading of the clock at creation or at the last reset *)
Definition last_start (born : Z) (resets : list Z) : Z := List.last resets born.
(** from 1970 to 2106 *)
Definition this_century (clock : Z) : Prop := (0 <= clock < 2 ^ 32 * 1000000000)%Z.

(** messages with a message of the end for each message of a call, nested like the calls *)
Inductive well_nested : list str -> Prop :=
| wn_none : well_nested []
| wn_then a b : well_nested a -> well_nested b -> well_nested (a ++ b)
| wn_call name args kwargs inner : well_nested inner -> well_nested (called_text name args kwargs :: inner ++ [finished_text name]).

(** texts with commas between them *)
Inductive listed : list str -> str -> Prop :=
| listed_none : listed [] []
| listed_one t : listed [t] t
| listed_more t t' ts u : listed (t' :: ts) u -> listed (t :: t' :: ts) (t ++ s ", " ++ u).
(** how Python writes a tuple of things that are written [ts]: with one thing there is a comma after it *)
Definition tuple_reads (ts : list str) (a : str) : Prop := exists u, listed ts u /\ (length ts = 1%nat -> a = s "(" ++ u ++ s ",)") /\ (length ts <> 1%nat -> a = s "(" ++ u ++ s ")").
(** how it writes a dictionary of these keys and things *)
Definition dict_reads (kts : list (str * str)) (a : str) : Prop := exists es u, Forall2 (fun kt e => e = s "'" ++ fst kt ++ s "': " ++ snd kt) kts es /\ listed es u /\ a = s "{" ++ u ++ s "}".
