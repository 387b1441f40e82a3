(** The calendar of the crate chrono, as far as rust/pact_models/src/generators/datetime_expressions.rs uses it:
    days of the proleptic Gregorian calendar, numbered from 1970-01-01, and points in time in a zone with a fixed
    offset (nanoseconds since 1970-01-01T00:00 on the local clock; a zone whose offset changes is not modelled).
    The conversion between day numbers and dates is the usual one with eras of 400 years;
    CalendarProofs.v shows that it counts the days one after another. *)
From Coq Require Import List ZArith Lia Bool.
Import ListNotations.
Open Scope Z_scope.

(** Year, month, day. *)
Record date := mkDate { d_year : Z; d_month : Z; d_day : Z }.

(** The day of an era (400 years from a 1st of March) as year of the era, month from March, day of the month. *)
Definition of_doe (doe : Z) : Z * Z * Z :=
  let yoe := (doe - doe / 1460 + doe / 36524 - doe / 146096) / 365 in
  let doy := doe - (365 * yoe + yoe / 4 - yoe / 100) in
  let mp := (5 * doy + 2) / 153 in
  (yoe, mp, doy - (153 * mp + 2) / 5 + 1).
(** [chrono::Datelike] of a day: year(), month(), day(). *)
Definition civil (n : Z) : date :=
  let z := n + 719468 in
  let '(yoe, mp, d) := of_doe (z mod 146097) in
  let m := if mp <? 10 then mp + 3 else mp - 9 in
  mkDate (yoe + z / 146097 * 400 + (if m <=? 2 then 1 else 0)) m d.
(** The number of a day. *)
Definition day_number (x : date) : Z :=
  let y := if d_month x <=? 2 then d_year x - 1 else d_year x in
  let mp := if d_month x <=? 2 then d_month x + 9 else d_month x - 3 in
  let yoe := y mod 400 in
  y / 400 * 146097 + (yoe * 365 + yoe / 4 - yoe / 100 + ((153 * mp + 2) / 5 + d_day x - 1)) - 719468.
Definition leap (y : Z) : bool := (y mod 4 =? 0) && (negb (y mod 100 =? 0) || (y mod 400 =? 0)).
Definition month_length (y m : Z) : Z :=
  if m =? 2 then if leap y then 29 else 28
  else if (m =? 4) || (m =? 6) || (m =? 9) || (m =? 11) then 30 else 31.
(** The days that exist. *)
Definition exists_day (x : date) : bool :=
  (1 <=? d_month x) && (d_month x <=? 12) && (1 <=? d_day x) && (d_day x <=? month_length (d_year x) (d_month x)).
(** [weekday()]: Monday is 0. *)
Definition weekday (n : Z) : Z := (n + 3) mod 7.

(** * Points in time *)
Definition ns_per_day : Z := 86400000000000.
Definition day_of (t : Z) : Z := t / ns_per_day.
Definition ns_of_day (t : Z) : Z := t mod ns_per_day.
Definition at_day (n : Z) (ns : Z) : Z := n * ns_per_day + ns.
(** [Timelike::hour()]. *)
Definition hour_of (t : Z) : Z := ns_of_day t / 3600000000000.
