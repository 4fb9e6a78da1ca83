(** Specification of C144. *)
From Coq Require Import ZArith.
From Verif Require Export LocalTime_model Time_spec.
Local Open Scope Z_scope.

(** no zone is more than a day and some hours away from UTC *)
Definition reasonable (zone : Z -> Z) : Prop := forall t, -100000 <= zone t <= 100000.
(** what the standard says of mktime: it gives a time that localtime breaks down to the same date and time of the day, if there is any *)
Definition honest (zone : Z -> Z) (mktime : tm -> Z) : Prop :=
  forall t, in_clock (t * 1000000000) -> localtime_tm zone (mktime (localtime_tm zone t)) = localtime_tm zone t.
(** the clocks of the zone show this time only once *)
Definition once (zone : Z -> Z) (n : Z) : Prop := forall m, m + zone m = n + zone n -> m = n.
(** central Europe around October 27th, 2024, 01:00 UTC *)
Definition europe (t : Z) : Z := if t <? 1729990800 then 7200 else 3600.
