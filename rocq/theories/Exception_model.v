(** Model of cpp_utils/src/cpp/exception/Exception.cpp; the other exceptions,
    cpp_utils/include/cpp_utils/exception/*.hpp, only inherit its constructors. *)
From Coq Require Export List.
From Verif Require Export Str Outcome Printing_model.
Import ListNotations.

(** the argument of the constructor *)
Inductive message :=
| Pointer (p : option str)      (* const char*: null, or the bytes of memory from there on *)
| Text (t : str)                (* const std::string& *)
| Streamed (vals : list str).   (* const Formatter& with what was streamed into it *)

(** Exception.cpp:25-41: the member message_.  std::string(nullptr) of libstdc++ throws, and the
    constructor is noexcept; of memory without NUL it reads beyond its end. *)
Definition construct (m : message) : outcome str :=
  match m with
  | Pointer None => Abort
  | Pointer (Some bytes) => if existsb (Ascii.eqb zero) bytes then Ret (c_str bytes) else UB
  | Text t => Ret t
  | Streamed vals => Ret (fmt_to_string (fold_left fmt_stream vals []))
  end.

(** Exception.cpp:43-46 what, read as a text *)
Definition what (message_ : str) : str := c_str message_.

(** Exception.hpp:71-81: copies and assignments, also into the base class, copy the member *)
Definition copy (message_ : str) : str := message_.
