(** For which formats a text that is generated is one that the same format accepts. *)
From Coq Require Import List Arith NArith ZArith Bool.
From Verif Require Import Base Calendar TimeFormat.
Import ListNotations.

(** The fields that are written as they are read, whatever follows: years of two or four letters, months, days of
    the month and of the week, hours from 0 to 23 or from 1 to 12, minutes, seconds, fractions of three, six or nine
    digits, offsets of the form +hhmm (Z to ZZZ) and +hh:mm (XXX and xxx), text. *)
Definition faithful (t : token) : Prop :=
  match t with
  | Era _ | Month _ | MonthNum _ | Literal _ | DayInMonth | DayName _ | AmPm
  | Hour24ZeroBased | Hour12 | Minute | Second => True
  | Year n => n = 2%nat \/ n = 4%nat
  | DayOfWeek n => (n <= 2)%nat
  | Millisecond n => n = 3%nat \/ n = 6%nat \/ n = 9%nat
  | TimezoneOffset n => (1 <= n <= 3)%nat
  | TimezoneOffsetX n | TimezoneOffsetXZZero n => n = 3%nat
  | _ => False
  end.
(** A format that gives the day and the month but no year cannot express the 29th of February. *)
Definition expressible (ts : list token) (d : date) : Prop :=
  (exists n, In (Year n) ts) \/ ~ In DayInMonth ts \/ (forall n, ~ In (Month n) ts) \/ ~ (d_month d = 2 /\ d_day d = 29)%Z.

(** What a field says of the moment: the day [n] (Calendar.v), the time [h]:[mi]:[s] and [fr] nanoseconds, in a zone
    [off] minutes ahead. *)
From Coq Require Import String.
From Verif Require Import Text SpecTimeFormat.
Open Scope Z_scope.
Definition num (d : str) : Z := Z.of_N (value d).
Definition tells_offset (off : Z) (between : str) (d : str) : Prop :=
  exists sg hh mm, d = [sg] ++ hh ++ between ++ mm /\
    ((sg = 43%N /\ off = 60 * num hh + num mm) \/ (sg = 45%N /\ off = - (60 * num hh + num mm))).
Definition tells (n h mi s fr off : Z) (t : token) (d : str) : Prop :=
  let day := civil n in
  match t with
  | Era _ => d = S_ "AD"
  | Year k => num d = if (k =? 2)%nat then d_year day mod 100 else d_year day
  | Month _ => month_meant d (d_month day)
  | MonthNum _ => num d = d_month day
  | DayInMonth => num d = d_day day
  | DayName k => exists w, nth_error (if (k <=? 3)%nat then days_short else days_long) (Z.to_nat (weekday n)) = Some w /\ ascii_lower d = S_ w
  | DayOfWeek _ => num d = weekday n + 1
  | AmPm => ascii_lower d = S_ (if h <? 12 then "am" else "pm")
  | Hour24ZeroBased => num d = h
  | Hour12 => 1 <= num d <= 12 /\ num d mod 12 = h mod 12
  | Minute => num d = mi
  | Second => num d = s
  | Millisecond k => num d = fr / 10 ^ (9 - Z.of_nat k)
  | TimezoneOffset _ => tells_offset off [] d
  | TimezoneOffsetX _ | TimezoneOffsetXZZero _ => tells_offset off (S_ ":") d
  | Literal x => d = x
  | _ => True
  end.
Definition moment (n h mi s fr : Z) : Z := at_day n (((h * 60 + mi) * 60 + s) * 1000000000 + fr).
Definition on_the_clock (h mi s fr : Z) : Prop := 0 <= h < 24 /\ 0 <= mi < 60 /\ 0 <= s < 60 /\ 0 <= fr < 1000000000.
