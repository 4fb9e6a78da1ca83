(** Model of FileAccessMode, cpp_utils/include/cpp_utils/utils.hpp:39-66, and of is_file_accessible,
    cpp_utils/src/cpp/utils.cpp:55-71 and :239-256 (not the Windows branch). *)
From Coq Require Export List ZArith Bool.
Export ListNotations.
Local Open Scope Z_scope.

(** utils.hpp:46-56; an enum class with the underlying type int may hold any int *)
Definition exist : Z := 0.
Definition read : Z := 4.
Definition write : Z := 2.
Definition exec : Z := 1.
Definition read_write : Z := Z.lor read write.
Definition read_exec : Z := Z.lor read exec.
Definition read_write_exec : Z := Z.lor (Z.lor read write) exec.
Definition write_exec : Z := Z.lor write exec.

(** utils.cpp:55-71 *)
Definition mode_or (a b : Z) : Z := Z.lor a b.
Definition mode_and (a b : Z) : Z := Z.land a b.

(** access(2) of POSIX, with R_OK 4, W_OK 2, X_OK 1 and F_OK 0: 0 if all is granted, otherwise -1.
    A file: what the process may do with it, [None] when it does not exist *)
Record permissions := { may_read : bool; may_write : bool; may_exec : bool }.
Definition access (file : option permissions) (mode : Z) : Z :=
  match file with
  | None => -1
  | Some p =>
    if (mode <? 0) || (7 <? mode) then -1
    else if (Z.testbit mode 2 && negb (may_read p)) || (Z.testbit mode 1 && negb (may_write p)) || (Z.testbit mode 0 && negb (may_exec p)) then -1
    else 0
  end.

(** utils.cpp:239-256 *)
Definition is_file_accessible (file : option permissions) (access_mode : Z) : bool := negb (access file access_mode =? -1).
