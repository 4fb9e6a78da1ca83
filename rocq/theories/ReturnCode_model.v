(** Model of cpp_utils/src/cpp/ReturnCode.cpp and include/cpp_utils/ReturnCode.hpp.

    The numbers of the middleware's codes are those of the DDS standard, as in
    fastdds/dds/core/ReturnCode.hpp (not in /repo; part of the trusted base). *)
From Coq Require Import ZArith String List Bool.
From Verif Require Import Outcome.
Import ListNotations.
Local Open Scope Z_scope.

(** fastdds::dds::ReturnCode_t *)
Definition DDS_OK := 0.
Definition DDS_ERROR := 1.
Definition DDS_UNSUPPORTED := 2.
Definition DDS_BAD_PARAMETER := 3.
Definition DDS_PRECONDITION_NOT_MET := 4.
Definition DDS_OUT_OF_RESOURCES := 5.
Definition DDS_NOT_ENABLED := 6.
Definition DDS_IMMUTABLE_POLICY := 7.
Definition DDS_INCONSISTENT_POLICY := 8.
Definition DDS_ALREADY_DELETED := 9.
Definition DDS_TIMEOUT := 10.
Definition DDS_NO_DATA := 11.
Definition DDS_ILLEGAL_OPERATION := 12.

(** enum ReturnCodeValue, ReturnCode.hpp:41-49 *)
Inductive code_value := RETCODE_OK | RETCODE_ERROR | RETCODE_UNKNOWN | RETCODE_NO_DATA | RETCODE_NOT_ENABLED | RETCODE_PRECONDITION_NOT_MET.
Definition enum_number (v : code_value) : Z :=
  match v with
  | RETCODE_OK => 0 | RETCODE_ERROR => 1 | RETCODE_UNKNOWN => 2 | RETCODE_NO_DATA => 3
  | RETCODE_NOT_ENABLED => 4 | RETCODE_PRECONDITION_NOT_MET => 5
  end.

(** the class has one member, [value_] *)
Definition return_code := code_value.

(** default constructor, ReturnCode.hpp:52-55 *)
Definition rc_default : return_code := RETCODE_OK.

(** ReturnCode.cpp:30-62, from a code of the middleware *)
Definition rc_of_dds (value : Z) : return_code :=
  if value =? DDS_OK then RETCODE_OK
  else if (value =? DDS_ERROR) || (value =? DDS_UNSUPPORTED) || (value =? DDS_BAD_PARAMETER) || (value =? DDS_OUT_OF_RESOURCES)
    || (value =? DDS_IMMUTABLE_POLICY) || (value =? DDS_INCONSISTENT_POLICY) || (value =? DDS_ALREADY_DELETED)
    || (value =? DDS_TIMEOUT) || (value =? DDS_ILLEGAL_OPERATION) then RETCODE_ERROR
  else if value =? DDS_NO_DATA then RETCODE_NO_DATA
  else if value =? DDS_NOT_ENABLED then RETCODE_NOT_ENABLED
  else if value =? DDS_PRECONDITION_NOT_MET then RETCODE_PRECONDITION_NOT_MET
  else RETCODE_UNKNOWN.

(** ReturnCode.cpp:64-68 *)
Definition rc_of_value (v : code_value) : return_code := v.

(** operator(), ReturnCode.cpp:70-73 *)
Definition rc_number (c : return_code) : Z := enum_number c.

(** [ReturnCode(n)] for an integer [n] chooses the constructor from ReturnCode_t: an integer
    does not convert to an enumeration *)
Definition rc_of_integer (n : Z) : return_code := rc_of_dds n.

(** ReturnCode.cpp:75-79, :81-85, :110-115 *)
Definition rc_eq (a b : return_code) : bool := enum_number a =? enum_number b.
Definition rc_eq_value (a : return_code) (v : code_value) : bool := enum_number a =? enum_number v.
Definition value_eq_rc (v : code_value) (a : return_code) : bool := rc_eq_value a v.
(** ReturnCode.cpp:87-91, :93-97, :117-122 *)
Definition rc_neq (a b : return_code) : bool := negb (enum_number a =? enum_number b).
Definition rc_neq_value (a : return_code) (v : code_value) : bool := negb (enum_number a =? enum_number v).
Definition value_neq_rc (v : code_value) (a : return_code) : bool := rc_neq_value a v.
(** ReturnCode.cpp:99-103 *)
Definition rc_lt (a b : return_code) : bool := rc_number a <? rc_number b.
(** operator!, ReturnCode.cpp:105-108 *)
Definition rc_not (a : return_code) : bool := negb (enum_number a =? enum_number RETCODE_OK).

(** ReturnCode.cpp:124-132 *)
Definition to_string_conversion : list (code_value * string) :=
  [(RETCODE_OK, "Ok"%string); (RETCODE_ERROR, "Error"%string); (RETCODE_UNKNOWN, "Unknown"%string); (RETCODE_NO_DATA, "NoData"%string);
   (RETCODE_NOT_ENABLED, "NotEnabled"%string); (RETCODE_PRECONDITION_NOT_MET, "PreconditionNotMet"%string)].
Fixpoint lookup_name (v : code_value) (l : list (code_value * string)) : option string :=
  match l with
  | [] => None
  | (k, name) :: rest => if enum_number k =? enum_number v then Some name else lookup_name v rest
  end.
(** operator<<, ReturnCode.cpp:134-142 *)
Definition rc_print (c : return_code) : outcome string :=
  match lookup_name c to_string_conversion with
  | Some name => Ret (append "{" (append name "}"))
  | None => Abort (* the assertion *)
  end.
