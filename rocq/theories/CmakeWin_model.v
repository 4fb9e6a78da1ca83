(** Model of get_win32_path_dependencies on Windows, cmake_utils/cmake/test/test_requirements.cmake:22-67, which makes the PATH with which tests are run.

    A path of a target is written as the target.  Left out: items of link interfaces that are no names, such as keywords and generator expressions; entries of PATH
    that are empty. *)
From Verif Require Export Str.

(** the targets: whether a name is one that is an interface library, and what is linked to it *)
Record targets := { interface : str -> option bool; links : str -> list str }.
(** an entry of PATH: the directory of a target, or of the environment *)
Inductive dir := Target (t : str) | Environment (d : str).
(** the loop over the libraries, :31-53; [rec]: the recursive call with EXTRA_PATHS, :44; None: it has no end *)
Fixpoint libraries (g : targets) (rec : str -> option (list dir)) (ls : list str) (local : list dir) : option (list dir) :=
  match ls with
  | [] => Some local
  | l :: ls =>
    match interface g l with
    | Some false => match rec l with Some d => libraries g rec ls (d ++ Target l :: local) | None => None end
    | _ => libraries g rec ls local
    end
  end.
Fixpoint extra (fuel : nat) (g : targets) (t : str) : option (list dir) :=
  match fuel with 0 => None | S f => libraries g (extra f g) (links g t) [] end.
Definition dir_eqb (a b : dir) : bool := match a, b with Target x, Target y => str_eqb x y | Environment x, Environment y => str_eqb x y | _, _ => false end.
(** list(REMOVE_DUPLICATES): the first of each stays *)
Fixpoint remove_duplicates (l : list dir) : list dir :=
  match l with [] => [] | d :: l => d :: filter (fun e => negb (dir_eqb d e)) (remove_duplicates l) end.
(** the whole, :55-59; [env]: PATH of the environment *)
Definition win32_path (fuel : nat) (g : targets) (env : list str) (t : str) : option (list dir) :=
  option_map (fun d => remove_duplicates (d ++ map Environment env)) (extra fuel g t).
