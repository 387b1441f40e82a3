(** What a format of dates and times is, which texts fit it, and which formats a generated text is sure to fit.
    Written without the parsers of TimeFormat.v; from there only the type of the tokens (DateTimePatternToken). *)
From Coq Require Import Ascii String List Arith NArith ZArith Bool.
From Verif Require Import Base Text Calendar TimeFormat.
Import ListNotations.
Open Scope N_scope.

Definition begins (p : N -> Prop) (s : str) : Prop := match s with [] => False | c :: _ => p c end.

(** * Formats *)
(** The letters, how often they may be repeated (None: any number) and what they stand for. *)
Definition letters : list (string * option nat * (nat -> token)) :=
  [("G", Some 5%nat, Era); ("y", None, Year); ("Y", None, Year); ("u", None, Year);
   ("M", Some 5%nat, Month); ("L", Some 5%nat, MonthNum);
   ("D", None, fun _ => DayInYear); ("d", Some 2%nat, fun _ => DayInMonth);
   ("Q", Some 5%nat, QuarterOfYear); ("q", Some 2%nat, QuarterOfYearNum);
   ("w", Some 2%nat, fun _ => WeekInYear); ("W", Some 2%nat, fun _ => WeekInMonth true); ("F", Some 2%nat, fun _ => WeekInMonth false);
   ("E", Some 5%nat, DayName); ("e", Some 5%nat, DayOfWeek); ("c", Some 1%nat, DayOfWeek);
   ("a", Some 1%nat, fun _ => AmPm);
   ("h", Some 2%nat, fun _ => Hour12); ("H", Some 2%nat, fun _ => Hour24ZeroBased);
   ("k", Some 2%nat, fun _ => Hour24); ("K", Some 2%nat, fun _ => Hour12ZeroBased);
   ("m", Some 2%nat, fun _ => Minute); ("s", Some 2%nat, fun _ => Second);
   ("S", None, Millisecond); ("n", None, Nanosecond); ("A", None, fun _ => MillisecondOfDay); ("N", None, fun _ => NanosecondOfDay);
   ("Z", Some 5%nat, TimezoneOffset); ("x", Some 5%nat, TimezoneOffsetX); ("X", Some 5%nat, TimezoneOffsetXZZero);
   ("O", Some 4%nat, TimezoneOffsetGmt); ("V", Some 2%nat, TimezoneId); ("z", Some 4%nat, TimezoneName)]%string.
Definition meaning (c : N) (n : nat) (t : token) : Prop :=
  (1 <= n)%nat /\
  exists l k f, In (l, k, f) letters /\ S_ l = [c] /\ t = f n /\ match k with Some k => (n <= k)%nat | None => True end.

(** Characters that stand for themselves. *)
Definition reserved : str := S_ "abcdefghijklmnopqrstuvwxyzABCDEFGHIJKLMNOPQRSTUVWXYZ0123456789'{}[]".
Definition stands_for_itself (c : N) : Prop := ~ In c reserved.
Definition a_quote (c : N) : Prop := c = 39.
(** Text in quotes: a quote in it is written twice. *)
Fixpoint escaped (x : str) : str :=
  match x with [] => [] | c :: x' => if c =? 39 then 39 :: 39 :: escaped x' else c :: escaped x' end.
(** The code makes one quote of several quotes in a row. *)
Fixpoint squeeze (after_quote : bool) (x : str) : str :=
  match x with
  | [] => []
  | c :: x' => if c =? 39 then if after_quote then squeeze true x' else 39 :: squeeze true x' else c :: squeeze false x'
  end.

Inductive writes : str -> list token -> Prop :=
| writes_end : writes [] []
| writes_field : forall c n t rest ts,
    meaning c n t -> ~ begins (eq c) rest -> writes rest ts ->
    writes (repeat c n ++ rest) (t :: ts)
| writes_text : forall x rest ts,
    x <> [] -> Forall stands_for_itself x -> ~ begins stands_for_itself rest -> writes rest ts ->
    writes (x ++ rest) (Literal x :: ts)
| writes_quoted : forall x rest ts,
    x <> [] -> ~ begins a_quote rest -> writes rest ts ->
    writes (S_ "'" ++ escaped x ++ S_ "'" ++ rest) (Literal (squeeze false x) :: ts)
| writes_quote : forall rest ts,
    ~ begins a_quote rest -> writes rest ts ->
    writes (S_ "''" ++ rest) (Literal (S_ "'") :: ts).

(** * Values *)
(** What a field may look like: its text and what follows it. *)
Definition shape := str -> str -> Prop.
Definition digit (c : N) : Prop := 48 <= c <= 57.
(** Up to [n] digits, as many as there are. *)
Definition digits_upto (n : nat) : shape := fun d rest =>
  d <> [] /\ Forall digit d /\ (length d <= n)%nat /\ (length d = n \/ ~ begins digit rest).
Definition value (d : str) : N := fold_left (fun a c => 10 * a + (c - 48)) d 0.
Definition numeral (n : nat) (lo hi : N) : shape := fun d rest =>
  digits_upto n d rest /\ lo <= value d <= hi.
Definition digits_all : shape := fun d rest => d <> [] /\ Forall digit d /\ ~ begins digit rest.
(** One of some words, in capitals or not. *)
Definition word (l : list string) : shape := fun d _ => exists w, In w l /\ ascii_lower d = ascii_lower (S_ w).
Definition exactly (t : string) : shape := fun d _ => d = S_ t.
Definition seq (a b : shape) : shape := fun d rest => exists x y, d = x ++ y /\ a x (y ++ rest) /\ b y rest.
Definition either (a b : shape) : shape := fun d rest => a d rest \/ b d rest.
(** The second only where the first is impossible. *)
Definition otherwise (a b : shape) : shape := fun d rest =>
  a d rest \/ (b d rest /\ forall x y, d ++ rest = x ++ y -> ~ a x y).
Definition nothing : shape := fun d _ => d = [].
Definition maybe (a : shape) : shape := otherwise a nothing.
Definition sign : shape := fun d rest =>
  d <> [] /\ Forall (fun c => c = 43 \/ c = 45) d /\ ~ begins (fun c => c = 43 \/ c = 45) rest.
Infix ";;" := seq (at level 61, right associativity).

Definition months_short : list string :=
  ["jan"; "feb"; "mar"; "apr"; "may"; "jun"; "jul"; "aug"; "sep"; "oct"; "nov"; "dec"]%string.
Definition months_long : list string :=
  ["january"; "february"; "march"; "april"; "may"; "june"; "july"; "august"; "september"; "october"; "november"; "december"]%string.
Definition days_short : list string := ["mon"; "tue"; "wed"; "thu"; "fri"; "sat"; "sun"]%string.
Definition days_long : list string :=
  ["monday"; "tuesday"; "wednesday"; "thursday"; "friday"; "saturday"; "sunday"]%string.

Definition hh : shape := numeral 2 0 11.
Definition mm : shape := numeral 2 0 59.
Definition ss : shape := numeral 2 0 60.
Definition gmt : shape := either (exactly "GMT") (exactly "UTC").
Definition iso_offset (n : nat) : shape :=
  match n with
  | 1%nat => sign ;; hh ;; maybe mm
  | 2%nat => sign ;; hh ;; mm
  | 3%nat => sign ;; hh ;; exactly ":" ;; mm
  | 4%nat => sign ;; hh ;; mm ;; maybe ss
  | _ => sign ;; hh ;; exactly ":" ;; mm ;; maybe (exactly ":" ;; ss)
  end.
Definition letter_or_digit (c : N) : Prop := 65 <= c <= 90 \/ 97 <= c <= 122 \/ digit c.
Definition name_part : shape := fun d rest =>
  d <> [] /\ Forall letter_or_digit d /\ ~ begins letter_or_digit rest.

Section Zones.
Variable abbreviations zones : str -> bool.
Definition zone_name : shape := fun d rest =>
  Forall (fun c => 65 <= c <= 90) d /\ abbreviations d = true /\
  (length d = 4%nat \/ length d = 3%nat /\ ~ begins (fun c => 65 <= c <= 90) rest).
Definition zone_id : shape := fun d rest => (name_part ;; exactly "/" ;; name_part) d rest /\ zones d = true.
Definition shape_of (t : token) : shape :=
  match t with
  | Era _ => word ["ad"; "bc"]%string
  | Year n => digits_upto n
  | Month n => if (n <=? 2)%nat then numeral 2 1 12 else if (n =? 3)%nat then word months_short else word months_long
  | MonthNum _ => numeral 2 1 12
  | Literal x => fun d _ => d = x
  | WeekInYear => numeral 2 1 56
  | WeekInMonth true => numeral 2 1 5
  | WeekInMonth false => numeral 2 0 4
  | DayInYear => numeral 3 1 356
  | DayInMonth => numeral 2 1 31
  | DayName n => if (n <=? 3)%nat then word days_short else word days_long
  | DayOfWeek n => if (n <=? 2)%nat then numeral 1 1 7 else if (n =? 3)%nat then word days_short else word days_long
  | AmPm => word ["am"; "pm"]%string
  | Hour24 => numeral 2 1 24
  | Hour24ZeroBased => numeral 2 0 23
  | Hour12 => numeral 2 1 12
  | Hour12ZeroBased => numeral 2 0 11
  | Minute => numeral 2 0 59
  | Second => numeral 2 0 60
  | Millisecond n => fun d rest => digits_upto n d rest /\ (n < 20)%nat
  | Nanosecond _ | MillisecondOfDay | NanosecondOfDay => digits_all
  | TimezoneOffset n =>
      if (n <=? 3)%nat then sign ;; hh ;; mm
      else if (n =? 4)%nat then otherwise (gmt ;; sign ;; hh ;; exactly ":" ;; mm) gmt
      else sign ;; hh ;; exactly ":" ;; mm
  | TimezoneOffsetX n => iso_offset n
  | TimezoneOffsetXZZero n => either (exactly "Z") (iso_offset n)
  | TimezoneOffsetGmt n =>
      if (n <=? 3)%nat then gmt ;; sign ;; hh ;; maybe (exactly ":" ;; mm) else gmt ;; sign ;; hh ;; exactly ":" ;; mm
  | TimezoneName n => fun d rest => (n < 4)%nat /\ zone_name d rest
  | TimezoneId _ => zone_id
  | QuarterOfYear n =>
      if (n <=? 2)%nat then numeral 2 1 4
      else if (n =? 3)%nat then word ["Q1"; "Q2"; "Q3"; "Q4"]%string
      else word ["1st"; "2nd"; "3rd"; "4th"]%string ;; word [" quarter"]%string
  | QuarterOfYearNum _ => numeral 2 1 4
  end.

(** A text is made of the fields of a format. *)
Inductive fits : list token -> str -> list (token * str) -> Prop :=
| fits_end : fits [] [] []
| fits_field : forall t ts d rest l,
    shape_of t d rest -> fits ts rest l -> fits (t :: ts) (d ++ rest) ((t, d) :: l).

(** The first field of a kind. *)
Definition first_field (kind : token -> Prop) (l : list (token * str)) (d : str) : Prop :=
  exists before t after, l = before ++ (t, d) :: after /\ kind t /\ Forall (fun e => ~ kind (fst e)) before.
Definition a_day (t : token) : Prop := t = DayInMonth.
Definition a_month (t : token) : Prop := exists n, t = Month n.
Definition a_year (t : token) : Prop := exists n, t = Year n.
(** The month that a text stands for. *)
Definition month_meant (m : str) (k : Z) : Prop :=
  (exists i w, (nth_error months_short i = Some w \/ nth_error months_long i = Some w) /\
               ascii_lower m = S_ w /\ k = Z.of_nat (S i)) \/
  (m <> [] /\ Forall digit m /\ k = Z.of_N (value m)).
(** There is such a day, in a year that is no leap year when the format has none. *)
Definition day_exists (l : list (token * str)) : Prop :=
  forall d m k, first_field a_day l d -> first_field a_month l m -> month_meant m k ->
  (forall y, first_field a_year l y -> (Z.of_N (value d) <= month_length (Z.of_N (value y)) k)%Z) /\
  ((forall y, ~ first_field a_year l y) -> (Z.of_N (value d) <= month_length 2001 k)%Z).
(** The year, looked at when there is a day, is one of 16 bits. *)
Definition year_small (l : list (token * str)) : Prop :=
  forall d y, first_field a_day l d -> first_field a_year l y -> value y < 32768.

Definition follows (v f : str) : Prop :=
  f <> [] /\ exists ts l, writes f ts /\ fits ts v l /\ day_exists l /\ year_small l.
End Zones.
