(** Model of the evaluation of date and time expressions:
    rust/pact_models/src/generators/datetime_expressions.rs:152-402.

    Points in time are those of Calendar.v, in a zone with a fixed offset. Additions outside of what chrono can
    represent panic there; that is taken to be the whole years from [first] to [last] (in chrono 0.4.40 -262143 to
    262142, exact for UTC). Integer overflow is a panic (a release build wraps around instead). The texts of errors are
    left out. *)
From Coq Require Import Ascii String List Arith NArith ZArith Lia Bool.
From Verif Require Import Base Json Text Calendar DateExpr.
Import ListNotations.
Open Scope Z_scope.

(** [value as i64], [value as i32] of an u64. *)
Definition as_signed (bits : Z) (v : N) : Z :=
  let m := Z.of_N v mod 2 ^ bits in if m <? 2 ^ (bits - 1) then m else m - 2 ^ bits.
Definition as_i64 : N -> Z := as_signed 64.
Definition as_i32 : N -> Z := as_signed 32.
Definition i64_max : Z := 2 ^ 63 - 1.
Definition in_i32 (z : Z) : bool := (- 2 ^ 31 <=? z) && (z <? 2 ^ 31).

Section Eval.
Variable first last : Z.
Definition representable (t : Z) : bool :=
  let y := d_year (civil (day_of t)) in (first <=? y) && (y <=? last).

Definition result := outcome Z unit.
(** [date.add(duration)], [date.sub(duration)]. *)
Definition shifted (t : Z) : result := if representable t then Ok t else Panic.
(** [Duration::try_days], [try_weeks], [try_hours] and so on, in milliseconds: at most 2^63-1 of them either way. *)
Definition try_duration (value : Z) (unit_ms : Z) : result :=
  if Z.abs (value * unit_ms) <=? i64_max then Ok (value * unit_ms * 1000000) else Err tt.
Definition day_ms : Z := 86400000.

(** [with_day], [with_year]: [None] if there is no such day or it is not representable. *)
Definition with_date (t : Z) (x : date) : option Z :=
  let t' := at_day (day_number x) (ns_of_day t) in
  if exists_day x && representable t' then Some t' else None.
Definition or_else (o : option Z) (t : Z) : Z := match o with Some t' => t' | None => t end.
Definition with_day (t d : Z) : option Z := let x := civil (day_of t) in with_date t (mkDate (d_year x) (d_month x) d).
Definition with_year (t y : Z) : option Z := let x := civil (day_of t) in with_date t (mkDate y (d_month x) (d_day x)).
Definition month (t : Z) : Z := d_month (civil (day_of t)).

(** The loops [while p(date) { date = date.add(one day) }]; [step] is a day forward or back. *)
Fixpoint roll_while (fuel : nat) (step : Z) (p : Z -> bool) (t : Z) : result :=
  match fuel with
  | O => Err tt
  | S f => if p t then bind (shifted (t + step)) (roll_while f step p) else Ok t
  end.
(** 294-331 [adjust_date_up_to], [adjust_date_down_to]: no more than 400 days each (proved to be enough). *)
Definition roll_to (step : Z) (p : Z -> bool) (t : Z) : result :=
  bind (roll_while 400 step p t) (roll_while 400 step (fun t => negb (p t))).
(** 334-367 [roll_month]: the loop until [count] months have begun. *)
Fixpoint roll_months (fuel : nat) (step : Z) (m : Z) (count : Z) (t : Z) : result :=
  match fuel with
  | O => Err tt
  | S f => if 0 <? count then
             bind (shifted (t + step)) (fun t =>
               if month t =? m then roll_months f step m count t else roll_months f step (month t) (count - 1) t)
           else Ok t
  end.
Definition roll_month (t months : Z) : result :=
  if 0 <? months then
    bind (roll_months (Z.to_nat (32 * months + 32)) ns_per_day (month t) months t) (fun t' =>
      Ok (or_else (with_day t' (d_day (civil (day_of t)))) t'))
  else if months <? 0 then
    bind (roll_months (Z.to_nat (32 * - months + 32)) (- ns_per_day) (month t) (- months) t) (fun t' =>
      Ok (or_else (with_day t' (d_day (civil (day_of t)))) t'))
  else Ok t.

Definition is_weekday (d : N) (t : Z) : bool := weekday (day_of t) =? Z.of_N d.
Definition is_month (m : N) (t : Z) : bool := month t =? Z.of_N m.
(** 247-282 [forward_date_by]. *)
Definition forward_date_by (a : adjustment date_offset) (t : Z) : result :=
  match a_type a with
  | ODay => bind (try_duration (as_i64 (a_value a)) day_ms) (fun d => shifted (t + d))
  | OWeek => bind (try_duration (as_i64 (a_value a)) (7 * day_ms)) (fun d => shifted (t + d))
  | OMonth => roll_month t (as_i64 (a_value a))
  | OYear => let y := d_year (civil (day_of t)) + as_i32 (a_value a) in
             if in_i32 y then Ok (or_else (with_year t y) t) else Panic
  | OWeekday d => roll_to ns_per_day (is_weekday d) t
  | OMonthName m => roll_to ns_per_day (is_month m) t
  end.
(** 369-404 [reverse_date_by]. *)
Definition reverse_date_by (a : adjustment date_offset) (t : Z) : result :=
  match a_type a with
  | ODay => bind (try_duration (as_i64 (a_value a)) day_ms) (fun d => shifted (t - d))
  | OWeek => bind (try_duration (as_i64 (a_value a)) (7 * day_ms)) (fun d => shifted (t - d))
  | OMonth => if as_i64 (a_value a) =? - 2 ^ 63 then Panic else roll_month t (- as_i64 (a_value a))
  | OYear => let y := d_year (civil (day_of t)) - as_i32 (a_value a) in
             if in_i32 y then Ok (or_else (with_year t y) t) else Panic
  | OWeekday d => roll_to (- ns_per_day) (is_weekday d) t
  | OMonthName m => bind (roll_to (- ns_per_day) (is_month m) t) (fun t' => Ok (or_else (with_day t' 1) t))
  end.
(** 406-413 [base_date]. *)
Definition base_date (b : date_base) (t : Z) : result :=
  match b with
  | DNow | DToday => Ok t
  | DYesterday => shifted (t - ns_per_day)
  | DTomorrow => shifted (t + ns_per_day)
  end.
Definition date_adjusted (a : adjustment date_offset) (t : Z) : result :=
  match a_op a with Plus => forward_date_by a t | Minus => reverse_date_by a t end.
Fixpoint apply_all {A} (f : A -> Z -> result) (l : list A) (t : Z) : result :=
  match l with [] => Ok t | a :: l' => bind (f a t) (apply_all f l') end.
Definition eval_date (e : parsed_date) (t : Z) : result := bind (base_date (fst e) t) (apply_all date_adjusted (snd e)).

(** ** Times: 172-222 *)
Definition hour_ns : Z := 3600000000000.
(** [with_hour] of the time with its minutes, seconds and nanoseconds set to 0. *)
Definition with_full_hour (t h : Z) : option Z :=
  if (0 <=? h) && (h <? 24) then
    let t' := at_day (day_of t) (h * hour_ns) in if representable t' then Some t' else None
  else None.
Definition base_time (b : time_base) (t : Z) : Z :=
  match b with
  | TNow => t
  | TMidnight => or_else (with_full_hour t 0) t
  | TNoon => or_else (with_full_hour t 12) t
  | TAm h => or_else (with_full_hour t (Z.of_N h)) t
  | TPm h => or_else (with_full_hour t (12 + Z.of_N h)) t
  | TNext h => if hour_of t <? 12 then or_else (with_full_hour t (12 + Z.of_N h)) t
               else or_else (with_full_hour t (Z.of_N h)) t
  end.
Definition time_unit_ms (u : time_offset) : Z :=
  match u with OHour => 3600000 | OMinute => 60000 | OSecond => 1000 | OMillisecond => 1 end.
Definition time_adjusted (a : adjustment time_offset) (t : Z) : result :=
  bind (try_duration (as_i64 (a_value a)) (time_unit_ms (a_type a))) (fun d =>
    shifted (match a_op a with Plus => t + d | Minus => t - d end)).
Definition eval_time (e : parsed_time) (t : Z) : result := apply_all time_adjusted (snd e) (base_time (fst e) t).

(** ** Texts *)
Variable w : world.
Variable after_error : str -> str.
Definition parsed {A} (o : option A) (f : A -> result) : result := match o with Some e => f e | None => Err tt end.
(** 152-168 [execute_date_expression], 171-224 [execute_time_expression]. *)
Definition execute_date_expression (t : Z) (s : str) : result :=
  match s with [] => Ok t | _ => parsed (parse_date_expression w after_error s) (fun e => eval_date e t) end.
Definition execute_time_expression (t : Z) (s : str) : result :=
  match s with [] => Ok t | _ => parsed (parse_time_expression w after_error s) (fun e => eval_time e t) end.
(** [split_once("@")]. *)
Fixpoint split_at (s : str) : option (str * str) :=
  match s with
  | [] => None
  | c :: s' => if (c =? 64)%N then Some ([], s') else option_map (fun r => (c :: fst r, snd r)) (split_at s')
  end.
(** 227-245 [execute_datetime_expression]. *)
Definition execute_datetime_expression (t : Z) (s : str) : result :=
  match s with
  | [] => Ok t
  | _ =>
      match split_at s with
      | Some (d, e) =>
          match execute_date_expression t d with
          | Ok t' => execute_time_expression t' e
          | Err _ => match execute_time_expression t e with Panic => Panic | _ => Err tt end
          | Panic => Panic
          end
      | None => execute_date_expression t s
      end
  end.
End Eval.
