(** Specification of date and time expressions: how they are written and which point in time they denote. *)
From Coq Require Import Ascii String List Arith NArith ZArith Lia Bool.
From Verif Require Import Base Json Text Calendar DateExpr.
Import ListNotations.
Open Scope Z_scope.

(** * Meaning *)
(** Day and time of day of a point in time. *)
Definition date_at (t : Z) : date := civil (day_of t).
Definition same_clock (t t' : Z) : Prop := ns_of_day t' = ns_of_day t.
(** Plus or minus an amount. *)
Definition signed (o : operation) (v : N) : Z := match o with Plus => Z.of_N v | Minus => - Z.of_N v end.
(** Months counted through. *)
Definition month_index (x : date) : Z := 12 * d_year x + (d_month x - 1).
Definition first_of_month (m : Z) (n : Z) : Prop := d_month (civil n) = m /\ d_day (civil n) = 1.
(** The last day of the month whose first day is [n]. *)
Definition month_end (n : Z) : Z := n + month_length (d_year (civil n)) (d_month (civil n)) - 1.

(** What an adjustment does to a point in time. *)
Section Moved.
Variable first last : Z. (* the years that can be represented *)
Inductive moved : operation -> date_offset -> N -> Z -> Z -> Prop :=
| mv_day : forall o v t, moved o ODay v t (t + signed o v * ns_per_day)
| mv_week : forall o v t, moved o OWeek v t (t + signed o v * (7 * ns_per_day))
| mv_no_month : forall o t, moved o OMonth 0 t t
(** The same day of the month, if there is one; else the first day going forward, the last going back. *)
| mv_month : forall o v t t', (v <> 0)%N -> same_clock t t' ->
    month_index (date_at t') = month_index (date_at t) + signed o v ->
    (let y := d_year (date_at t') in let m := d_month (date_at t') in
     d_day (date_at t') =
       if d_day (date_at t) <=? month_length y m then d_day (date_at t)
       else match o with Plus => 1 | Minus => month_length y m end) ->
    moved o OMonth v t t'
(** The same day of another year; a day that is not there leaves the date as it is. *)
| mv_year : forall o v t t', same_clock t t' ->
    (let y := d_year (date_at t) + signed o v in first <= y <= last) ->
    date_at t' = mkDate (d_year (date_at t) + signed o v) (d_month (date_at t)) (d_day (date_at t)) ->
    moved o OYear v t t'
| mv_no_year : forall o v t,
    (let x := mkDate (d_year (date_at t) + signed o v) (d_month (date_at t)) (d_day (date_at t)) in
     exists_day x = false \/ ~ first <= d_year x <= last) ->
    moved o OYear v t t
(** The next or last such day of the week, never the same day. *)
| mv_next_weekday : forall d v t t', same_clock t t' -> weekday (day_of t') = Z.of_N d ->
    day_of t < day_of t' <= day_of t + 7 -> moved Plus (OWeekday d) v t t'
| mv_last_weekday : forall d v t t', same_clock t t' -> weekday (day_of t') = Z.of_N d ->
    day_of t - 7 <= day_of t' < day_of t -> moved Minus (OWeekday d) v t t'
(** The first day of the next month of that name to begin, or of the last one that is over. *)
| mv_next_month_name : forall m v t t', same_clock t t' -> first_of_month (Z.of_N m) (day_of t') -> day_of t < day_of t' ->
    (forall n, day_of t < n < day_of t' -> ~ first_of_month (Z.of_N m) n) ->
    moved Plus (OMonthName m) v t t'
| mv_last_month_name : forall m v t t', same_clock t t' -> first_of_month (Z.of_N m) (day_of t') -> month_end (day_of t') < day_of t ->
    (forall n, first_of_month (Z.of_N m) n -> month_end n < day_of t -> n <= day_of t') ->
    moved Minus (OMonthName m) v t t'.
Definition in_years (t : Z) : Prop := first <= d_year (date_at t) <= last.
Inductive based : date_base -> Z -> Z -> Prop :=
| bs_now : forall t, based DNow t t
| bs_today : forall t, based DToday t t
| bs_yesterday : forall t, based DYesterday t (t - ns_per_day)
| bs_tomorrow : forall t, based DTomorrow t (t + ns_per_day).
(** Adjustments one after another, each of which stays in the years that can be represented. *)
Inductive chain {U} (R : operation -> U -> N -> Z -> Z -> Prop) : list (adjustment U) -> Z -> Z -> Prop :=
| ch_nil : forall t, chain R [] t t
| ch_cons : forall a l t t1 t2, R (a_op a) (a_type a) (a_value a) t t1 -> in_years t1 -> chain R l t1 t2 -> chain R (a :: l) t t2.
Definition denotes_date (e : parsed_date) (t t' : Z) : Prop :=
  exists t0, based (fst e) t t0 /\ in_years t0 /\ chain moved (snd e) t0 t'.

(** ** Times *)
Definition time_unit_ns (u : time_offset) : Z :=
  match u with OHour => 3600000000000 | OMinute => 60000000000 | OSecond => 1000000000 | OMillisecond => 1000000 end.
Definition moved_time (o : operation) (u : time_offset) (v : N) (t t' : Z) : Prop := t' = t + signed o v * time_unit_ns u.
(** The full hour of the day. *)
Definition at_hour (t h t' : Z) : Prop := day_of t' = day_of t /\ ns_of_day t' = h * 3600000000000.
(** Twelve o'clock am is noon; twelve o'clock pm leaves the time as it is. *)
Inductive based_time : time_base -> Z -> Z -> Prop :=
| bt_now : forall t, based_time TNow t t
| bt_midnight : forall t t', at_hour t 0 t' -> based_time TMidnight t t'
| bt_noon : forall t t', at_hour t 12 t' -> based_time TNoon t t'
| bt_am : forall h t t', at_hour t (Z.of_N h) t' -> based_time (TAm h) t t'
| bt_pm : forall h t t', (h < 12)%N -> at_hour t (12 + Z.of_N h) t' -> based_time (TPm h) t t'
| bt_pm_12 : forall t, based_time (TPm 12) t t
| bt_next_am : forall h t t', 12 <= hour_of t -> at_hour t (Z.of_N h) t' -> based_time (TNext h) t t'
| bt_next_pm : forall h t t', hour_of t < 12 -> (h < 12)%N -> at_hour t (12 + Z.of_N h) t' -> based_time (TNext h) t t'
| bt_next_12 : forall t, hour_of t < 12 -> based_time (TNext 12) t t.
Definition denotes_time (e : parsed_time) (t t' : Z) : Prop :=
  exists t0, based_time (fst e) t t0 /\ chain moved_time (snd e) t0 t'.
End Moved.
