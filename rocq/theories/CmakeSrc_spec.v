(** Specification of C155. *)
From Verif Require Import Cmake_spec CmakeSrc_model.

(** there is a file at this path below the directory *)
Inductive file_at : node -> list str -> Prop :=
| at_file l name : In (name, File) l -> file_at (Dir l) [name]
| at_dir l name n path : In (name, n) l -> file_at n path -> file_at (Dir l) (name :: path).
(** the last name of the path has one of these endings *)
Definition ending_in (endings : list str) (path : list str) : Prop := exists dirs stem e, In e endings /\ path = dirs ++ [stem ++ e].
(** the files of a directory with these endings; those that are not directly in it *)
Definition all_files (d : directory) (endings : list str) (path : list str) : Prop := exists p, path = fst d :: p /\ file_at (snd d) p /\ ending_in endings p.
Definition deep_files (d : directory) (endings : list str) (path : list str) : Prop := exists name p, path = fst d :: name :: p /\ p <> [] /\ file_at (snd d) (name :: p) /\ ending_in endings (name :: p).
Definition code_endings : list str := [s ".c"; s ".cpp"; s ".cxx"].
Definition header_endings : list str := [s ".h"; s ".hpp"; s ".ipp"].
(** no function that has been called has that many arguments *)
Definition no_argument (n : nat) (calls : list (list str)) : Prop := Forall (fun args => length args <= n) calls.
