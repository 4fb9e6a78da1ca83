(** Specifications of C141 and C142. *)
From Verif Require Import Cmake_model.

Definition digit (c : ascii) : Prop := 48 <= nat_of_ascii c <= 57.
(** the only [key] in the text is followed by the number [x] *)
Definition says (t key x : str) : Prop :=
  exists pre post, t = pre ++ key ++ x ++ post /\ (forall pre' post', t = pre' ++ key ++ post' -> pre' = pre) /\
    Forall digit x /\ forall c r, post = c :: r -> ~ digit c.
(** the file of the documentation *)
Definition version_file (x y z : str) : str :=
  s "VERSION_MAJOR " ++ x ++ [ascii_of_nat 10] ++ s "VERSION_MINOR " ++ y ++ [ascii_of_nat 10] ++ s "VERSION_PATCH " ++ z ++ [ascii_of_nat 10].
Definition dotted (x y z : str) : str := x ++ s "." ++ y ++ s "." ++ z.

(** lists of CMake *)
Fixpoint join (l : list str) : str := match l with [] => [] | [x] => x | x :: r => x ++ s ";" ++ join r end.
(** texts without the characters that are special in lists, but for a semicolon *)
Definition tame (t : str) : Prop := ~ In "\"%char t /\ ~ In "["%char t /\ ~ In "]"%char t.
Definition plain (t : str) : Prop := t <> [] /\ tame t /\ ~ In ";"%char t.
(** calls for files that are there: the lines of each file, and its label *)
Definition as_calls (files : list (list str * str)) : list (option (list str) * str) := map (fun x => (Some (fst x), snd x)) files.
(** the labels of the files that list the test, in order *)
Inductive chosen (test : str) : list (list str * str) -> list str -> Prop :=
| chosen_nil : chosen test [] []
| chosen_in lines label r o : In test lines -> chosen test r o -> chosen test ((lines, label) :: r) (label :: o)
| chosen_out lines label r o : ~ In test lines -> chosen test r o -> chosen test ((lines, label) :: r) o.
