(** Model of timestamp_to_string and string_to_timestamp with local_time = true, cpp_utils/src/cpp/time/time_utils.cpp:91-162.

    The zone is what is added to UTC at each second, and mktime, with tm_isdst = -1, any function: parameters.  The warning of :143-148
    is left out. *)
From Coq Require Export ZArith.
From Verif Require Export Str Outcome Time_model.
Local Open Scope Z_scope.

Section Zone.
Variable zone : Z -> Z.
Variable mktime : tm -> Z.

(** std::localtime; null if the year is not an int *)
Definition localtime_tm (t : Z) : tm := gmtime_tm (t + zone t).
Definition localtime (t : Z) : option tm := let x := localtime_tm t in if is_int (t_year x) then Some x else None.

(** timestamp_to_string, :91-119 *)
Definition local_to_string (timestamp : Z) (items : list item) : outcome str :=
  match localtime (to_time_t timestamp) with
  | Some x => Ret (put_time items x)
  | None => Throw PreconditionNotMet
  end.
(** string_to_timestamp, :121-162 *)
Definition string_to_local (t : str) (items : list item) : outcome Z :=
  match get_time items t with
  | None => Throw PreconditionNotMet
  | Some x => let utc := mktime x in if utc =? -1 then Throw ValueNotAllowed else from_time_t utc
  end.
End Zone.
