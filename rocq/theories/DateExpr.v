(** Model of the parsers of date and time expressions:
    rust/pact_models/src/generators/date_expression_parser.rs, time_expression_parser.rs and the types of
    datetime_expressions.rs. The texts of errors are left out.

    The lexers are derived by the crate logos from the patterns of the two token types: blanks are skipped, the
    longest pattern that matches is taken (logos documentation). How much a lexer has consumed after an error is an
    argument ([after_error]). *)
From Coq Require Import Ascii String List Arith NArith ZArith Lia Bool.
From Verif Require Import Base Json Text.
Import ListNotations.
Open Scope N_scope.

(** * Types: datetime_expressions.rs:74-137 *)
Inductive date_base := DNow | DToday | DYesterday | DTomorrow.
Inductive time_base := TNow | TMidnight | TNoon | TAm (hour : N) | TPm (hour : N) | TNext (hour : N).
Inductive operation := Plus | Minus.
(** Days of the week from Monday = 0, months from January = 1. *)
Inductive date_offset := ODay | OWeek | OMonth | OYear | OWeekday (d : N) | OMonthName (m : N).
Inductive time_offset := OHour | OMinute | OSecond | OMillisecond.
Inductive clock_hour := CAm | CPm | CNext.
Record adjustment (O : Type) := mkAdj { a_type : O; a_value : N; a_op : operation }.
Arguments mkAdj {O}. Arguments a_type {O}. Arguments a_value {O}. Arguments a_op {O}.

(** * Lexers *)
(** date_expression_parser.rs:19-133 [DateExpressionToken], time_expression_parser.rs:17-62 [TimeExpressionToken]. *)
Inductive date_token :=
| KNow | KToday | KYesterday | KTomorrow | KOp (o : operation) | KNext | KLast | KInt (n : N)
| KDay | KDays | KWeek | KWeeks | KMonth | KMonths | KYear | KYears | KFortnight | KWeekday (d : N) | KMonthName (m : N).
Inductive time_token :=
| HNow | HMidnight | HNoon | HOClock | HAm | HPm | HOp (o : operation) | HNext | HLast | HDigits (n : N)
| HUnit (u : time_offset).
Definition date_words : list (str * date_token) :=
  [(S_ "now", KNow); (S_ "today", KToday); (S_ "yesterday", KYesterday); (S_ "tomorrow", KTomorrow);
   (S_ "+", KOp Plus); (S_ "-", KOp Minus); (S_ "next", KNext); (S_ "last", KLast);
   (S_ "days", KDays); (S_ "day", KDay); (S_ "weeks", KWeeks); (S_ "week", KWeek);
   (S_ "months", KMonths); (S_ "month", KMonth); (S_ "years", KYears); (S_ "year", KYear); (S_ "fortnight", KFortnight);
   (S_ "mon", KWeekday 0); (S_ "monday", KWeekday 0); (S_ "tues", KWeekday 1); (S_ "tuesday", KWeekday 1);
   (S_ "wed", KWeekday 2); (S_ "wednesday", KWeekday 2); (S_ "thurs", KWeekday 3); (S_ "thursday", KWeekday 3);
   (S_ "fri", KWeekday 4); (S_ "friday", KWeekday 4); (S_ "sat", KWeekday 5); (S_ "saturday", KWeekday 5);
   (S_ "sun", KWeekday 6); (S_ "sunday", KWeekday 6);
   (S_ "jan", KMonthName 1); (S_ "january", KMonthName 1); (S_ "feb", KMonthName 2); (S_ "february", KMonthName 2);
   (S_ "mar", KMonthName 3); (S_ "march", KMonthName 3); (S_ "apr", KMonthName 4); (S_ "april", KMonthName 4);
   (S_ "may", KMonthName 5); (S_ "jun", KMonthName 6); (S_ "june", KMonthName 6); (S_ "jul", KMonthName 7); (S_ "july", KMonthName 7);
   (S_ "aug", KMonthName 8); (S_ "august", KMonthName 8); (S_ "sep", KMonthName 9); (S_ "september", KMonthName 9);
   (S_ "oct", KMonthName 10); (S_ "october", KMonthName 10); (S_ "nov", KMonthName 11); (S_ "november", KMonthName 11);
   (S_ "dec", KMonthName 12); (S_ "december", KMonthName 12)].
Definition time_words : list (str * time_token) :=
  [(S_ "now", HNow); (S_ "midnight", HMidnight); (S_ "noon", HNoon); (S_ "o'clock", HOClock); (S_ "am", HAm); (S_ "pm", HPm);
   (S_ "+", HOp Plus); (S_ "-", HOp Minus); (S_ "next", HNext); (S_ "last", HLast);
   (S_ "hour", HUnit OHour); (S_ "hours", HUnit OHour); (S_ "minute", HUnit OMinute); (S_ "minutes", HUnit OMinute);
   (S_ "second", HUnit OSecond); (S_ "seconds", HUnit OSecond); (S_ "millisecond", HUnit OMillisecond); (S_ "milliseconds", HUnit OMillisecond)].

(** The pattern [ \t\n\f]+ that is skipped. *)
Definition blank (c : N) : bool := (c =? 32) || (c =? 9) || (c =? 10) || (c =? 12).
Fixpoint prefixed (p s : str) : bool :=
  match p, s with
  | [], _ => true
  | a :: p', b :: s' => (a =? b) && prefixed p' s'
  | _ :: _, [] => false
  end.
Fixpoint take_digits (s : str) : str :=
  match s with c :: s' => if is_digit c then c :: take_digits s' else [] | [] => [] end.

(** [Lexer::next]: the end, a token with what follows it, or an error with what follows. *)
Inductive lexed (T : Type) := LEnd | LToken (t : T) (rest : str) | LError (rest : str).
Arguments LEnd {T}. Arguments LToken {T}. Arguments LError {T}.
Section Lexer.
Context {T : Type}.
Variable words : list (str * T).
Variable number : N -> T.
Variable after_error : str -> str.
Definition longest (s : str) : option (str * T) :=
  fold_left (fun best e =>
    if prefixed (fst e) s && (match best with Some b => length (fst b) <? length (fst e) | None => true end)%nat
    then Some e else best) words None.
(** The callback of [0-9]+ is [lex.slice().parse().ok()]: a number beyond 64 bits is an error. *)
Definition lex_next (s : str) : lexed T :=
  match drop_while blank s with
  | [] => LEnd
  | c :: s' =>
      if is_digit c then
        match parse_usize (take_digits (c :: s')) with
        | Some n => LToken (number n) (drop_while is_digit s')
        | None => LError (drop_while is_digit s')
        end
      else match longest (c :: s') with
           | Some (w, t) => LToken t (skipn (length w) (c :: s'))
           | None => LError (after_error (c :: s'))
           end
  end.
End Lexer.

(** * Parsers *)
(** What the two parsers have in common. *)
Section Parser.
Context {T U : Type}.
Variable next : str -> lexed T.
Variable op_of : T -> option operation.      (* is_op and operation() *)
Variable number_of : T -> option N.
Variable unit_of : T -> option U.            (* duration_type() *)
(** date: 231-239, 266-274, 285-303 [adjustment], [duration], [duration_type]; time: 242-268 and 282-302. *)
Definition duration (s : str) : option (U * N * str) :=
  match next s with
  | LToken t s1 =>
      match number_of t with
      | Some n => match next s1 with
                  | LToken t' s2 => option_map (fun u => (u, n, s2)) (unit_of t')
                  | _ => None
                  end
      | None => None
      end
  | _ => None
  end.
(** date: 216-229 [adjustments]; time: 214-240. The token [o] has been read. A token that is no operation ends the
    loop and is dropped, so is an error. [fuel] bounds the number of tokens. *)
Fixpoint adjustments (fuel : nat) (o : operation) (s : str) : option (list (adjustment U) * str) :=
  match fuel with
  | O => None
  | S f =>
      match duration s with
      | None => None
      | Some (u, n, s1) =>
          match next s1 with
          | LToken t s2 =>
              match op_of t with
              | Some o' => option_map (fun r => (mkAdj u n o :: fst r, snd r)) (adjustments f o' s2)
              | None => Some ([mkAdj u n o], s2)
              end
          | LEnd => Some ([mkAdj u n o], [])
          | LError s2 => Some ([mkAdj u n o], s2)
          end
      end
  end.
(** date: 174-180, 189-195, 203-209; time: 102-109, 121-128, 136-143: what follows a base or an offset. *)
Definition more (l : lexed T) : option (list (adjustment U) * str) :=
  match l with
  | LToken t s => match op_of t with Some o => adjustments (S (length s)) o s | None => None end
  | LEnd => Some ([], [])
  | LError s => Some ([], s)
  end.
End Parser.

Section Expressions.
Variable w : world.
Variable after_error : str -> str.
(** [lex.remainder().trim().is_empty()]. *)
Definition nothing_left (s : str) : bool := match trim w s with [] => true | _ => false end.
Definition finished {A} (r : option (A * str)) : option A :=
  match r with Some (a, s) => if nothing_left s then Some a else None | None => None end.

(** ** Dates *)
Definition date_next : str -> lexed date_token := lex_next date_words KInt after_error.
Definition date_op (t : date_token) : option operation := match t with KOp o => Some o | _ => None end.
Definition date_number (t : date_token) : option N := match t with KInt n => Some n | _ => None end.
(** date_expression_parser.rs:285-303 [duration_type]. *)
Definition date_unit (t : date_token) : option date_offset :=
  match t with
  | KDay | KDays => Some ODay | KWeek | KWeeks => Some OWeek | KMonth | KMonths => Some OMonth | KYear | KYears => Some OYear
  | _ => None
  end.
(** 244-252 [base]. *)
Definition date_base_of (t : date_token) : option date_base :=
  match t with KNow => Some DNow | KToday => Some DToday | KTomorrow => Some DTomorrow | KYesterday => Some DYesterday | _ => None end.
(** 360-392 [offset]. *)
Definition date_offset_of (t : date_token) : option (date_offset * N) :=
  match t with
  | KDay => Some (ODay, 1) | KWeek => Some (OWeek, 1) | KMonth => Some (OMonth, 1) | KYear => Some (OYear, 1)
  | KFortnight => Some (OWeek, 2)
  | KWeekday d => Some (OWeekday d, 1)
  | KMonthName m => Some (OMonthName m, 1)
  | _ => None
  end.
Definition parsed_date := (date_base * list (adjustment date_offset))%type.
Definition date_more : lexed date_token -> option (list (adjustment date_offset) * str) := more date_next date_op date_number date_unit.
Definition date_offset_expr (o : operation) (s : str) : option (parsed_date * str) :=
  match date_next s with
  | LToken t s1 =>
      match date_offset_of t with
      | Some (u, n) => option_map (fun r => ((DNow, mkAdj u n o :: fst r), snd r)) (date_more (date_next s1))
      | None => None
      end
  | _ => None
  end.
(** 165-213 [expression]. *)
Definition parse_date_expression (s : str) : option parsed_date :=
  finished
    match date_next s with
    | LToken t s1 =>
        match date_base_of t with
        | Some b => option_map (fun r => ((b, fst r), snd r)) (date_more (date_next s1))
        | None =>
            match t with
            | KOp o => option_map (fun r => ((DNow, fst r), snd r)) (date_more (LToken t s1))
            | KNext => date_offset_expr Plus s1
            | KLast => date_offset_expr Minus s1
            | _ => None
            end
        end
    | _ => None
    end.

(** ** Times *)
Definition time_next : str -> lexed time_token := lex_next time_words HDigits after_error.
Definition time_op (t : time_token) : option operation := match t with HOp o => Some o | _ => None end.
Definition time_number (t : time_token) : option N := match t with HDigits n => Some n | _ => None end.
(** time_expression_parser.rs:282-302 [duration_type], 324-342 [offset]. *)
Definition time_unit (t : time_token) : option time_offset := match t with HUnit u => Some u | _ => None end.
Definition parsed_time := (time_base * list (adjustment time_offset))%type.
Definition time_more : lexed time_token -> option (list (adjustment time_offset) * str) := more time_next time_op time_number time_unit.
(** datetime_expressions.rs:91-107 [TimeBase::of]. *)
Definition time_base_of_hour (hour : N) (c : clock_hour) : option time_base :=
  if (1 <=? hour) && (hour <=? 12) then
    Some (match c with CAm => TAm hour | CPm => TPm hour | CNext => TNext hour end)
  else None.
(** 187-211 [oclock]: the hour and what is lexed next. *)
Definition oclock (s : str) : option (clock_hour * lexed time_token) :=
  match time_next s with
  | LToken HOClock s1 =>
      match time_next s1 with
      | LToken HAm s2 => Some (CAm, time_next s2)
      | LToken HPm s2 => Some (CPm, time_next s2)
      | LToken t s2 => Some (CNext, LToken t s2)
      | LEnd => Some (CNext, LEnd)
      | LError _ => None
      end
  | _ => None
  end.
(** 162-181 [base]. *)
Definition time_base_expr (t : time_token) (s : str) : option (time_base * lexed time_token) :=
  match t with
  | HNow => Some (TNow, time_next s)
  | HMidnight => Some (TMidnight, time_next s)
  | HNoon => Some (TNoon, time_next s)
  | HDigits d => match oclock s with
                 | Some (c, l) => option_map (fun b => (b, l)) (time_base_of_hour d c)
                 | None => None
                 end
  | _ => None
  end.
Definition time_offset_expr (o : operation) (s : str) : option (parsed_time * str) :=
  match time_next s with
  | LToken t s1 =>
      match time_unit t with
      | Some u => option_map (fun r => ((TNow, mkAdj u 1 o :: fst r), snd r)) (time_more (time_next s1))
      | None => None
      end
  | _ => None
  end.
(** 92-159 [expression]. *)
Definition parse_time_expression (s : str) : option parsed_time :=
  finished
    match time_next s with
    | LToken t s1 =>
        match t with
        | HNow | HMidnight | HNoon | HDigits _ =>
            match time_base_expr t s1 with
            | Some (b, l) => option_map (fun r => ((b, fst r), snd r)) (time_more l)
            | None => None
            end
        | HOp _ => option_map (fun r => ((TNow, fst r), snd r)) (time_more (LToken t s1))
        | HNext => time_offset_expr Plus s1
        | HLast => time_offset_expr Minus s1
        | _ => None
        end
    | _ => None
    end.
End Expressions.
