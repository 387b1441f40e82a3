(** Model of rust/pact_models/src/time_utils.rs: formats of dates and times in the style of Java, the validation of
    a text against a format and the translation of a format into one of the crate chrono. The parsers of the crate
    nom (7.1.3) that the file uses are written out. The texts of errors and the traces are left out.

    The tables of time zones (timezone_db.rs) are generated by the build script from the files of tzdata: they are
    arguments ([abbreviations] for ZONES_ABBR.contains_key, [zones] for ZONES.contains). *)
From Coq Require Import Ascii String List Arith NArith ZArith Lia Bool.
From Verif Require Import Base Json Text Calendar.
Import ListNotations.
Open Scope N_scope.

(** time_utils.rs:58-94 [DateTimePatternToken]. *)
Inductive token :=
| Era (n : nat) | Year (n : nat) | Month (n : nat) | MonthNum (n : nat) | Literal (t : str)
| WeekInYear | WeekInMonth (from_one : bool) | DayInYear | DayInMonth | DayName (n : nat) | DayOfWeek (n : nat)
| AmPm | Hour24 | Hour24ZeroBased | Hour12 | Hour12ZeroBased | Minute | Second
| Millisecond (n : nat) | Nanosecond (n : nat)
| TimezoneOffset (n : nat) | TimezoneOffsetX (n : nat) | TimezoneOffsetXZZero (n : nat) | TimezoneOffsetGmt (n : nat)
| TimezoneName (n : nat) | TimezoneId (n : nat)
| QuarterOfYear (n : nat) | QuarterOfYearNum (n : nat) | MillisecondOfDay | NanosecondOfDay.

(** * Parsers of nom *)
(** [take_while_m_n(1, n, p)]: as many as possible, at most [n]. *)
Fixpoint take_upto (n : nat) (p : N -> bool) (s : str) : str * str :=
  match n, s with
  | S n', c :: s' => if p c then let r := take_upto n' p s' in (c :: fst r, snd r) else ([], s)
  | _, _ => ([], s)
  end.
(** [is_a], [is_not], [digit1], [alphanumeric1]: as many as possible; [None] when there is none. *)
Fixpoint take_run (p : N -> bool) (s : str) : str * str :=
  match s with
  | c :: s' => if p c then let r := take_run p s' in (c :: fst r, snd r) else ([], s)
  | [] => ([], [])
  end.
Definition run1 (p : N -> bool) (s : str) : option (str * str) :=
  match take_run p s with ([], _) => None | r => Some r end.
(** [tag(t)] and [tag_no_case(t)], [alt] over a list of tags. *)
Fixpoint tag_by (same : N -> N -> bool) (t s : str) : option (str * str) :=
  match t, s with
  | [], _ => Some ([], s)
  | a :: t', b :: s' => if same a b then option_map (fun r => (b :: fst r, snd r)) (tag_by same t' s') else None
  | _ :: _, [] => None
  end.
Definition tag (t s : str) : option (str * str) := tag_by N.eqb t s.
(** [tag_no_case] compares the lower case forms; the tags of this file are of ASCII characters without a k, and no
    other characters have one of these as their lower case form. *)
Definition tag_no_case (t s : str) : option (str * str) := tag_by (fun a b => ascii_low a =? ascii_low b) t s.
Fixpoint first_of {A B} (f : A -> option B) (l : list A) : option B :=
  match l with
  | [] => None
  | a :: l' => match f a with Some r => Some r | None => first_of f l' end
  end.

(** * Formats: time_utils.rs:173-407 *)
(** The functions *_pattern: the token for [n] letters [c]; [None] is the failure TooManyPatternLetters, which ends
    the whole parse, or no such letter. *)
Definition at_most (k n : nat) (t : token) : option token := if Nat.leb n k then Some t else None.
Definition letter_token (c : N) (n : nat) : option token :=
  if c =? 71 (* G *) then at_most 5 n (Era n)
  else if (c =? 121) || (c =? 89) || (c =? 117) (* y Y u *) then Some (Year n)
  else if c =? 77 (* M *) then at_most 5 n (Month n)
  else if c =? 76 (* L *) then at_most 5 n (MonthNum n)
  else if c =? 68 (* D *) then Some DayInYear
  else if c =? 100 (* d *) then at_most 2 n DayInMonth
  else if c =? 81 (* Q *) then at_most 5 n (QuarterOfYear n)
  else if c =? 113 (* q *) then at_most 2 n (QuarterOfYearNum n)
  else if c =? 119 (* w *) then at_most 2 n WeekInYear
  else if c =? 87 (* W *) then at_most 2 n (WeekInMonth true)
  else if c =? 70 (* F *) then at_most 2 n (WeekInMonth false)
  else if c =? 69 (* E *) then at_most 5 n (DayName n)
  else if c =? 101 (* e *) then at_most 5 n (DayOfWeek n)
  else if c =? 99 (* c *) then at_most 1 n (DayOfWeek n)
  else if c =? 97 (* a *) then at_most 1 n AmPm
  else if c =? 104 (* h *) then at_most 2 n Hour12
  else if c =? 72 (* H *) then at_most 2 n Hour24ZeroBased
  else if c =? 107 (* k *) then at_most 2 n Hour24
  else if c =? 75 (* K *) then at_most 2 n Hour12ZeroBased
  else if c =? 109 (* m *) then at_most 2 n Minute
  else if c =? 115 (* s *) then at_most 2 n Second
  else if c =? 83 (* S *) then Some (Millisecond n)
  else if c =? 110 (* n *) then Some (Nanosecond n)
  else if c =? 65 (* A *) then Some MillisecondOfDay
  else if c =? 78 (* N *) then Some NanosecondOfDay
  else if c =? 90 (* Z *) then at_most 5 n (TimezoneOffset n)
  else if c =? 120 (* x *) then at_most 5 n (TimezoneOffsetX n)
  else if c =? 79 (* O *) then at_most 4 n (TimezoneOffsetGmt n)
  else if c =? 86 (* V *) then at_most 2 n (TimezoneId n)
  else if c =? 122 (* z *) then at_most 4 n (TimezoneName n)
  else if c =? 88 (* X *) then at_most 5 n (TimezoneOffsetXZZero n)
  else None.

(** 401-405 [text_pattern]: neither a letter nor a digit nor one of '{}[]. *)
Definition plain (c : N) : bool :=
  negb (ascii_alpha c || is_digit c || (c =? 39) || (c =? 123) || (c =? 125) || (c =? 91) || (c =? 93)).

(** 304-311 [quoted_text_pattern]: the part after the opening quote, pairs of quotes and other characters up to a
    quote that stands alone; [coalesce] makes one quote of quotes in a row. *)
Fixpoint quoted_body (s : str) : option (str * str) :=
  match s with
  | [] => None
  | c :: s1 =>
      if c =? 39 then
        match s1 with
        | d :: s2 => if d =? 39 then option_map (fun r => (39 :: 39 :: fst r, snd r)) (quoted_body s2) else Some ([], s1)
        | [] => Some ([], s1)
        end
      else option_map (fun r => (c :: fst r, snd r)) (quoted_body s1)
  end.
Fixpoint coalesce (s : str) : str :=
  match s with
  | a :: (b :: _) as s' => if (a =? 39) && (b =? 39) then coalesce s' else a :: coalesce s'
  | _ => s
  end.
Definition quoted_text (s : str) : option (token * str) :=
  match s with
  | c :: s' =>
      if c =? 39 then
        match quoted_body s' with
        | Some ([], _) | None => None
        | Some (t, rest) => Some (Literal (coalesce t), rest)
        end
      else None
  | [] => None
  end.
(** 313-315 [quote_pattern]. *)
Definition quote_pattern (s : str) : option (token * str) :=
  option_map (fun r => (Literal [39], snd r)) (tag [39; 39] s).

(** 739-779 [parse_pattern]: the alternatives of one token. They begin with different characters but for the two
    with a quote, so their order plays no part elsewhere. *)
Definition one_token (s : str) : option (token * str) :=
  match s with
  | [] => None
  | c :: _ =>
      if c =? 39 then match quoted_text s with Some r => Some r | None => quote_pattern s end
      else if ascii_alpha c then
        let r := take_run (N.eqb c) s in
        option_map (fun t => (t, snd r)) (letter_token c (length (fst r)))
      else option_map (fun r => (Literal (fst r), snd r)) (run1 plain s)
  end.
(** [many1] and the check that nothing remains; what an alternative that fails leaves is never empty, so both kinds
    of failure end as Err. [fuel]: every token takes a character. *)
Fixpoint tokens_of (fuel : nat) (s : str) : option (list token) :=
  match fuel with
  | O => None
  | S f => match one_token s with
           | None => None
           | Some (t, []) => Some [t]
           | Some (t, rest) => option_map (cons t) (tokens_of f rest)
           end
  end.
Definition parse_pattern (s : str) : option (list token) := tokens_of (S (length s)) s.

(** * Values: time_utils.rs:409-736 *)
(** What a field of a value can come to: what it matched and what remains, an error, a panic. *)
Definition field_result := outcome (str * str) unit.
Definition of_option {A} (o : option A) : outcome A unit := match o with Some a => Ok a | None => Err tt end.
(** [take_while_m_n(1, n, is_digit)] and [validate_number] (163-171). *)
Definition number (n : nat) (lo hi : N) (s : str) : option (str * str) :=
  match take_upto n is_digit s with
  | ([], _) => None
  | (d, rest) => match parse_usize d with
                 | Some v => if (lo <=? v) && (v <=? hi) then Some (d, rest) else None
                 | None => None
                 end
  end.
(** 409-417 [era], [ampm]. *)
Definition era (s : str) := first_of (fun t => tag_no_case t s) [S_ "ad"; S_ "bc"].
Definition ampm (s : str) := first_of (fun t => tag_no_case t s) [S_ "am"; S_ "pm"].
(** 419-422 [year]. *)
Definition year (n : nat) (s : str) : option (str * str) :=
  match take_upto n is_digit s with ([], _) => None | r => Some r end.
(** 424-464 [month_num], [month]. *)
Definition month_num := number 2 1 12.
Definition short_months : list str :=
  [S_ "jan"; S_ "feb"; S_ "mar"; S_ "apr"; S_ "may"; S_ "jun"; S_ "jul"; S_ "aug"; S_ "sep"; S_ "oct"; S_ "nov"; S_ "dec"].
Definition long_months : list str :=
  [S_ "january"; S_ "february"; S_ "march"; S_ "april"; S_ "may"; S_ "june"; S_ "july"; S_ "august"; S_ "september";
   S_ "october"; S_ "november"; S_ "december"].
Definition month (n : nat) (s : str) : option (str * str) :=
  if Nat.leb n 2 then month_num s
  else if Nat.eqb n 3 then first_of (fun t => tag_no_case t s) short_months
  else first_of (fun t => tag_no_case t s) long_months.
(** 466-505 [week_in_year], [week_in_month], [day_in_year] (up to 356), [day_in_month]. *)
Definition week_in_year := number 2 1 56.
Definition week_in_month (from_one : bool) := if from_one then number 2 1 5 else number 2 0 4.
Definition day_in_year := number 3 1 356.
Definition day_in_month := number 2 1 31.
(** 507-518 [day_of_week], 680-702 [day_of_week_name]. *)
Definition short_days : list str := [S_ "mon"; S_ "tue"; S_ "wed"; S_ "thu"; S_ "fri"; S_ "sat"; S_ "sun"].
Definition long_days : list str :=
  [S_ "monday"; S_ "tuesday"; S_ "wednesday"; S_ "thursday"; S_ "friday"; S_ "saturday"; S_ "sunday"].
Definition day_of_week_name (n : nat) (s : str) : option (str * str) :=
  first_of (fun t => tag_no_case t s) (if Nat.leb n 3 then short_days else long_days).
Definition day_of_week (n : nat) (s : str) : option (str * str) :=
  if Nat.ltb 2 n then day_of_week_name n s else number 1 1 7 s.
(** 520-573 hours, minutes, seconds. *)
Definition hour_24 := number 2 1 24.
Definition hour_24_0 := number 2 0 23.
Definition hour_12 := number 2 1 12.
Definition hour_12_0 := number 2 0 11.
Definition minute := number 2 0 59.
Definition second := number 2 0 60.
(** 575-582 [second_fraction]: [usize::pow(10, n) - 1] is computed once there is a digit and overflows from 20 on
    (a panic where the program is built with overflow checks, as it is by default for cargo build and cargo test). *)
Definition second_fraction (n : nat) (s : str) : field_result :=
  match take_upto n is_digit s with
  | ([], _) => Err tt
  | (d, rest) =>
      if two64 <=? 10 ^ N.of_nat n then Panic
      else match parse_usize d with
           | Some v => if v <=? 10 ^ N.of_nat n - 1 then Ok (d, rest) else Err tt
           | None => Err tt
           end
  end.

(** [tuple]: one parser after the other; [opt]: nothing when the parser fails. What is matched is left out: no one
    looks at it (the function only looks at years, months and days). *)
Definition then_ (p q : str -> option (str * str)) (s : str) : option (str * str) :=
  match p s with
  | Some (a, s1) => match q s1 with Some (b, s2) => Some (a ++ b, s2) | None => None end
  | None => None
  end.
Definition opt (p : str -> option (str * str)) (s : str) : option (str * str) :=
  match p s with Some r => Some r | None => Some ([], s) end.
Definition signs : str -> option (str * str) := run1 (fun c => (c =? 43) || (c =? 45)).
Definition gmt_or_utc (s : str) : option (str * str) := first_of (fun t => tag t s) [S_ "GMT"; S_ "UTC"].
Definition colon : str -> option (str * str) := tag (S_ ":").
(** 584-589 [timezone_hour_min]. *)
Definition timezone_hour_min := then_ signs (then_ hour_12_0 (then_ colon minute)).
(** 591-620 [timezone_long_offset]. *)
Definition timezone_long_offset (n : nat) : str -> option (str * str) :=
  match n with
  | 1%nat => then_ signs (then_ hour_12_0 (opt minute))
  | 2%nat => then_ signs (then_ hour_12_0 minute)
  | 3%nat => then_ signs (then_ hour_12_0 (then_ colon minute))
  | 4%nat => then_ signs (then_ hour_12_0 (then_ minute (opt second)))
  | _ => then_ signs (then_ hour_12_0 (then_ colon (then_ minute (opt (then_ colon second)))))
  end.
(** 622-627 [timezone_long_offset_with_z]. *)
Definition timezone_long_offset_with_z (n : nat) (s : str) : option (str * str) :=
  match tag (S_ "Z") s with Some r => Some r | None => timezone_long_offset n s end.
(** 653-670 [timezone_offset]. *)
Definition timezone_offset (n : nat) : str -> option (str * str) :=
  if Nat.leb 1 n && Nat.leb n 3 then then_ signs (then_ hour_12_0 minute)
  else if Nat.eqb n 4 then
    fun s => match then_ gmt_or_utc timezone_hour_min s with
             | Some r => Some r
             | None => gmt_or_utc s
             end
  else timezone_hour_min.
(** 672-690 [timezone_offset_gmt]. *)
Definition timezone_offset_gmt (n : nat) : str -> option (str * str) :=
  if Nat.leb 1 n && Nat.leb n 3 then then_ gmt_or_utc (then_ signs (then_ hour_12_0 (opt (then_ colon minute))))
  else then_ gmt_or_utc (then_ signs (then_ hour_12_0 (then_ colon minute))).
(** 704-730 [quarter_num], [quarter]. *)
Definition quarter_num := number 2 1 4.
Definition quarter (n : nat) (s : str) : option (str * str) :=
  if Nat.ltb n 3 then quarter_num s
  else if Nat.eqb n 3 then first_of (fun t => tag_no_case t s) [S_ "Q1"; S_ "Q2"; S_ "Q3"; S_ "Q4"]
  else then_ (fun s => first_of (fun t => tag_no_case t s) [S_ "1st"; S_ "2nd"; S_ "3rd"; S_ "4th"])
             (tag_no_case (S_ " quarter")) s.

Section Zones.
Variable abbreviations zones : str -> bool.
(** 629-640 [timezone]: three or four capital letters. *)
Definition timezone (n : nat) (s : str) : option (str * str) :=
  if Nat.ltb n 4 then
    let r := take_upto 4 is_upper s in
    if Nat.leb 3 (length (fst r)) && abbreviations (fst r) then Some r else None
  else None.
(** 642-651 [timezone_id]. *)
Definition alphanumeric (c : N) : bool := ascii_alpha c || is_digit c.
Definition timezone_id (s : str) : option (str * str) :=
  match then_ (run1 alphanumeric) (then_ (tag (S_ "/")) (run1 alphanumeric)) s with
  | Some (z, rest) => if zones z then Some (z, rest) else None
  | None => None
  end.

(** 781-819 [validate_datetime_string]: the field of one token. *)
Definition field (t : token) (s : str) : field_result :=
  match t with
  | Era _ => of_option (era s)
  | Year n => of_option (year n s)
  | WeekInYear => of_option (week_in_year s)
  | WeekInMonth from_one => of_option (week_in_month from_one s)
  | DayInYear => of_option (day_in_year s)
  | DayInMonth => of_option (day_in_month s)
  | Month n => of_option (month n s)
  | MonthNum n => of_option (month_num s)
  | Literal t => of_option (tag t s)
  | DayName n => of_option (day_of_week_name n s)
  | DayOfWeek n => of_option (day_of_week n s)
  | Hour24 => of_option (hour_24 s)
  | Hour24ZeroBased => of_option (hour_24_0 s)
  | Hour12 => of_option (hour_12 s)
  | Hour12ZeroBased => of_option (hour_12_0 s)
  | Minute => of_option (minute s)
  | Second => of_option (second s)
  | Millisecond n => second_fraction n s
  | Nanosecond _ | MillisecondOfDay | NanosecondOfDay => of_option (run1 is_digit s)
  | TimezoneName n => of_option (timezone n s)
  | TimezoneId _ => of_option (timezone_id s)
  | TimezoneOffset n => of_option (timezone_offset n s)
  | TimezoneOffsetGmt n => of_option (timezone_offset_gmt n s)
  | TimezoneOffsetX n => of_option (timezone_long_offset n s)
  | TimezoneOffsetXZZero n => of_option (timezone_long_offset_with_z n s)
  | AmPm => of_option (ampm s)
  | QuarterOfYear n => of_option (quarter n s)
  | QuarterOfYearNum _ => of_option (quarter_num s)
  end.
(** 782-829: all fields in turn; then nothing must remain. *)
Fixpoint fields (ts : list token) (s : str) : outcome (list (token * str)) unit :=
  match ts with
  | [] => match s with [] => Ok [] | _ => Err tt end
  | t :: ts' => bind (field t s) (fun r => bind (fields ts' (snd r)) (fun l => Ok ((t, fst r) :: l)))
  end.

(** 957-976 [month_value]: [None] is Err. *)
Definition position (x : str) (l : list str) : option nat :=
  (fix go (i : nat) (l : list str) := match l with
     | [] => None
     | a :: l' => if str_eqb x a then Some i else go (S i) l'
     end) 1%nat l.
Definition parse_u8 (s : str) : option N :=
  match parse_usize s with Some v => if v <? 256 then Some v else None | None => None end.
Definition month_value (s : str) : option Z :=
  match position (ascii_lower s) long_months with
  | Some i => Some (Z.of_nat i)
  | None => match position (ascii_lower s) short_months with
            | Some i => Some (Z.of_nat i)
            | None => match parse_u8 s with
                      | Some v => if (1 <=? v) && (v <=? 12) then Some (Z.of_N v) else None
                      | None => None
                      end
            end
  end.
(** 832-882 [validate_matched_values]; [total_days] of the crate gregorian is the length of the month. *)
Definition is_day (t : token) : bool := match t with DayInMonth => true | _ => false end.
Definition is_month (t : token) : bool := match t with Month _ => true | _ => false end.
Definition is_year (t : token) : bool := match t with Year _ => true | _ => false end.
Definition matched (p : token -> bool) (l : list (token * str)) : option str :=
  option_map snd (find (fun e => p (fst e)) l).
Definition check_day (day : N) (year : Z) (m : str) : outcome unit unit :=
  match month_value m with
  | None => Panic
  | Some mm => if (month_length year mm <? Z.of_N day)%Z then Err tt else Ok tt
  end.
Definition validate_matched_values (l : list (token * str)) : outcome unit unit :=
  match matched is_day l with
  | None => Ok tt
  | Some d =>
      match parse_u8 d with
      | None => Panic
      | Some day =>
          match matched is_year l with
          | Some y =>
              match parse_usize y with
              | Some yy =>
                  if yy <? 32768 then
                    match matched is_month l with
                    | Some m => check_day day (Z.of_N yy) m
                    | None => Ok tt
                    end
                  else Panic                                    (* parse::<i16>().unwrap() *)
              | None => Panic
              end
          | None => match matched is_month l with
                    | Some m => check_day day 2001 m
                    | None => Ok tt
                    end
          end
      end
  end.
Definition validate_datetime_string (value : str) (ts : list token) : outcome unit unit :=
  bind (fields ts value) validate_matched_values.
(** 885-890 [validate_datetime]. *)
Definition validate_datetime (value format : str) : outcome unit unit :=
  match parse_pattern format with
  | Some ts => validate_datetime_string value ts
  | None => Err tt
  end.
End Zones.

(** * Generated texts *)
(** The items of a format of chrono that [to_chrono_pattern] (893-935) can produce. *)
Inductive item :=
| ItLit (t : str) | ItYear2 | ItYear4 | ItWeek | ItDayOfYear | ItDay | ItMonth | ItMonthShort | ItMonthLong
| ItDayLong | ItDayShort | ItDayNumber | ItHour24 | ItHour12 | ItMinute | ItSecond | ItFraction (n : nat) | ItNano
| ItZoneName | ItOffset | ItOffsetColon | ItAmPm.
(** The format as a list of items instead of its text (a literal with a percent sign is written with two, which
    chrono reads as one). *)
Definition chrono_item (t : token) : list item :=
  match t with
  | Era _ => [ItLit (S_ "AD")]
  | Year n => [if Nat.eqb n 2 then ItYear2 else ItYear4]
  | WeekInYear => [ItWeek]
  | DayInYear => [ItDayOfYear]
  | DayInMonth => [ItDay]
  | Month n => [if Nat.leb n 2 then ItMonth else if Nat.ltb 3 n then ItMonthLong else ItMonthShort]
  | MonthNum _ => [ItMonth]
  | Literal t => [ItLit t]
  | DayName n => [if Nat.ltb 3 n then ItDayLong else ItDayShort]
  | DayOfWeek _ => [ItDayNumber]
  | Hour24 | Hour24ZeroBased => [ItHour24]
  | Hour12 | Hour12ZeroBased => [ItHour12]
  | Minute => [ItMinute]
  | Second => [ItSecond]
  | Millisecond n => [if Nat.ltb n 3 then ItFraction 3 else ItFraction n]
  | Nanosecond _ => [ItNano]
  | TimezoneName _ | TimezoneId _ => [ItZoneName]
  | TimezoneOffset _ => [ItOffset]
  | TimezoneOffsetX _ | TimezoneOffsetXZZero _ => [ItOffsetColon]
  | AmPm => [ItAmPm]
  | WeekInMonth _ | TimezoneOffsetGmt _ | QuarterOfYear _ | QuarterOfYearNum _ | MillisecondOfDay | NanosecondOfDay => []
  end.
Definition to_chrono_pattern (ts : list token) : list item := flat_map chrono_item ts.

(** What chrono (0.4.40) writes for an item, from its documentation of strftime: a point in time (nanoseconds on the
    local clock, Calendar.v) in a zone with an offset of whole minutes. [None]: the item is not one that chrono has,
    and writing the text panics. *)
Definition digit_of (z : Z) : N := 48 + Z.to_N (z mod 10).
(** [n] digits. *)
Fixpoint digits (n : nat) (z : Z) : str :=
  match n with O => [] | S n' => digits n' (z / 10) ++ [digit_of z] end.
Definition month_names : list str :=
  [S_ "January"; S_ "February"; S_ "March"; S_ "April"; S_ "May"; S_ "June"; S_ "July"; S_ "August"; S_ "September";
   S_ "October"; S_ "November"; S_ "December"].
Definition month_shorts : list str :=
  [S_ "Jan"; S_ "Feb"; S_ "Mar"; S_ "Apr"; S_ "May"; S_ "Jun"; S_ "Jul"; S_ "Aug"; S_ "Sep"; S_ "Oct"; S_ "Nov"; S_ "Dec"].
Definition day_names : list str :=
  [S_ "Monday"; S_ "Tuesday"; S_ "Wednesday"; S_ "Thursday"; S_ "Friday"; S_ "Saturday"; S_ "Sunday"].
Definition day_shorts : list str := [S_ "Mon"; S_ "Tue"; S_ "Wed"; S_ "Thu"; S_ "Fri"; S_ "Sat"; S_ "Sun"].
(** Years outside 0..9999 are written with a sign. *)
Definition year4 (y : Z) : str :=
  if ((0 <=? y) && (y <=? 9999))%Z then digits 4 y
  else if (y <? 0)%Z then 45 :: (let d := show_N (Z.to_N (- y)) in repeat 48 (4 - length d) ++ d)
  else 43 :: (let d := show_N (Z.to_N y) in repeat 48 (4 - length d) ++ d).
Definition offset_text (colon : bool) (o : Z) : str :=
  (if (o <? 0)%Z then 45 else 43) :: digits 2 (Z.abs o / 60) ++ (if colon then [58] else []) ++ digits 2 (Z.abs o mod 60).
Definition day_of_year (n : Z) : Z := n - day_number (mkDate (d_year (civil n)) 1 1) + 1.
Definition write_item (t offset : Z) (i : item) : option str :=
  let c := civil (day_of t) in
  let h := hour_of t in
  let ns := ns_of_day t in
  match i with
  | ItLit s => Some s
  | ItYear2 => Some (digits 2 (d_year c mod 100))
  | ItYear4 => Some (year4 (d_year c))
  | ItWeek => Some (digits 2 ((day_of_year (day_of t) + 6 - (weekday (day_of t) + 1) mod 7) / 7))
  | ItDayOfYear => Some (digits 3 (day_of_year (day_of t)))
  | ItDay => Some (digits 2 (d_day c))
  | ItMonth => Some (digits 2 (d_month c))
  | ItMonthShort => Some (nth (Z.to_nat (d_month c - 1)) month_shorts [])
  | ItMonthLong => Some (nth (Z.to_nat (d_month c - 1)) month_names [])
  | ItDayLong => Some (nth (Z.to_nat (weekday (day_of t))) day_names [])
  | ItDayShort => Some (nth (Z.to_nat (weekday (day_of t))) day_shorts [])
  | ItDayNumber => Some (digits 1 (weekday (day_of t) + 1))
  | ItHour24 => Some (digits 2 h)
  | ItHour12 => Some (digits 2 ((h + 11) mod 12 + 1))
  | ItMinute => Some (digits 2 (ns / 60000000000 mod 60))
  | ItSecond => Some (digits 2 (ns / 1000000000 mod 60))
  | ItFraction n =>
      if Nat.eqb n 3 then Some (digits 3 (ns / 1000000))
      else if Nat.eqb n 6 then Some (digits 6 (ns / 1000))
      else if Nat.eqb n 9 then Some (digits 9 ns)
      else None
  | ItNano => Some (digits 9 ns)
  | ItZoneName => Some (offset_text true offset)
  | ItOffset => Some (offset_text false offset)
  | ItOffsetColon => Some (offset_text true offset)
  | ItAmPm => Some (if (h <? 12)%Z then S_ "AM" else S_ "PM")
  end.
Fixpoint write_items (t offset : Z) (l : list item) : option str :=
  match l with
  | [] => Some []
  | i :: l' => match write_item t offset i, write_items t offset l' with
               | Some a, Some b => Some (a ++ b)
               | _, _ => None
               end
  end.
(** 938-955 [generate_string], and the formats of the generators Time and DateTime (generators/mod.rs:937-985), on a
    point in time: [Err] when the format is none, [Panic] when chrono does not know an item. *)
Definition generate (t offset : Z) (format : str) : outcome str unit :=
  match parse_pattern format with
  | None => Err tt
  | Some ts => match write_items t offset (to_chrono_pattern ts) with Some s => Ok s | None => Panic end
  end.
(** generators/mod.rs:913-936, the generator Date: only the date is written ([date.date()]), for which chrono has no
    hours and so on. *)
Definition of_the_time (i : item) : bool :=
  match i with ItHour24 | ItHour12 | ItMinute | ItSecond | ItFraction _ | ItNano | ItAmPm => true | _ => false end.
Definition generate_date (t offset : Z) (format : str) : outcome str unit :=
  match parse_pattern format with
  | None => Err tt
  | Some ts => if existsb of_the_time (to_chrono_pattern ts) then Panic
               else match write_items t offset (to_chrono_pattern ts) with Some s => Ok s | None => Panic end
  end.
(** generators/mod.rs:935, 960, 983: what is written without a format. *)
Definition default_date_items : list item := [ItYear4; ItLit (S_ "-"); ItMonth; ItLit (S_ "-"); ItDay].
Definition default_time_items : list item := [ItHour24; ItLit (S_ ":"); ItMinute; ItLit (S_ ":"); ItSecond].
Definition default_datetime_items : list item :=
  [ItYear4; ItLit (S_ "-"); ItMonth; ItLit (S_ "-"); ItDay; ItLit (S_ "T"); ItHour24; ItLit (S_ ":"); ItMinute;
   ItLit (S_ ":"); ItSecond; ItLit (S_ "."); ItFraction 3; ItOffset].
