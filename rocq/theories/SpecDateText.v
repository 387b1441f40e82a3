(** Specification of how date and time expressions are written. *)
From Coq Require Import Ascii String List Arith NArith ZArith Lia Bool.
From Verif Require Import Base Json Text DateExpr.
Import ListNotations.
Open Scope N_scope.

(** * Words *)
Definition ops : list (str * operation) := [(S_ "+", Plus); (S_ "-", Minus)].
Definition directions : list (str * operation) := [(S_ "next", Plus); (S_ "last", Minus)].
Definition date_bases : list (str * date_base) :=
  [(S_ "now", DNow); (S_ "today", DToday); (S_ "yesterday", DYesterday); (S_ "tomorrow", DTomorrow)].
Definition date_units : list (str * date_offset) :=
  [(S_ "day", ODay); (S_ "days", ODay); (S_ "week", OWeek); (S_ "weeks", OWeek);
   (S_ "month", OMonth); (S_ "months", OMonth); (S_ "year", OYear); (S_ "years", OYear)].
(** After "next" or "last": these, once (a fortnight is two weeks). *)
Definition date_offsets : list (str * (date_offset * N)) :=
  [(S_ "day", (ODay, 1)); (S_ "week", (OWeek, 1)); (S_ "fortnight", (OWeek, 2)); (S_ "month", (OMonth, 1)); (S_ "year", (OYear, 1))] ++
  map (fun e => (fst e, (OWeekday (snd e), 1)))
    [(S_ "mon", 0); (S_ "tues", 1); (S_ "wed", 2); (S_ "thurs", 3); (S_ "fri", 4); (S_ "sat", 5); (S_ "sun", 6);
     (S_ "monday", 0); (S_ "tuesday", 1); (S_ "wednesday", 2); (S_ "thursday", 3); (S_ "friday", 4); (S_ "saturday", 5); (S_ "sunday", 6)] ++
  map (fun e => (fst e, (OMonthName (snd e), 1)))
    [(S_ "jan", 1); (S_ "feb", 2); (S_ "mar", 3); (S_ "apr", 4); (S_ "may", 5); (S_ "jun", 6);
     (S_ "jul", 7); (S_ "aug", 8); (S_ "sep", 9); (S_ "oct", 10); (S_ "nov", 11); (S_ "dec", 12);
     (S_ "january", 1); (S_ "february", 2); (S_ "march", 3); (S_ "april", 4); (S_ "june", 6);
     (S_ "july", 7); (S_ "august", 8); (S_ "september", 9); (S_ "october", 10); (S_ "november", 11); (S_ "december", 12)].
Definition date_vocabulary : list str :=
  map fst ops ++ map fst directions ++ map fst date_bases ++ map fst date_units ++ map fst date_offsets.

Definition time_bases : list (str * time_base) := [(S_ "now", TNow); (S_ "midnight", TMidnight); (S_ "noon", TNoon)].
Definition halves : list (str * clock_hour) := [(S_ "am", CAm); (S_ "pm", CPm)].
Definition o_clock : str := S_ "o'clock".
Definition time_units : list (str * time_offset) :=
  [(S_ "hour", OHour); (S_ "hours", OHour); (S_ "minute", OMinute); (S_ "minutes", OMinute);
   (S_ "second", OSecond); (S_ "seconds", OSecond); (S_ "millisecond", OMillisecond); (S_ "milliseconds", OMillisecond)].
Definition time_vocabulary : list str :=
  map fst ops ++ map fst directions ++ map fst time_bases ++ map fst halves ++ [o_clock] ++ map fst time_units.

(** * Reading *)
Definition all_blank (s : str) : Prop := Forall (fun c => blank c = true) s.
Definition begins (p s : str) : Prop := exists q, s = p ++ q.
Definition no_digit_first (s : str) : Prop := match s with c :: _ => is_digit c = false | [] => True end.
Section Reading.
Variable vocabulary : list str.
(** Blanks and then a word, the longest one of the vocabulary that is there. *)
Inductive read_word (v : str) : str -> str -> Prop :=
| rd_word : forall bl s, all_blank bl -> In v vocabulary ->
    (forall v', In v' vocabulary -> begins v' (v ++ s) -> (length v' <= length v)%nat) ->
    read_word v (bl ++ v ++ s) s.
(** Blanks and then all the digits of a number of 64 bits. *)
Inductive read_number (n : N) : str -> str -> Prop :=
| rd_number : forall bl ds s, all_blank bl -> ds <> [] -> all_digits ds = true -> no_digit_first s ->
    dec_value ds 0 = n -> n < two64 -> read_number n (bl ++ ds ++ s) s.
(** Blanks and then something else: [after_error] is what the lexer goes on with. *)
Variable after_error : str -> str.
Inductive unreadable : str -> str -> Prop :=
| ur_number : forall bl ds s, all_blank bl -> ds <> [] -> all_digits ds = true -> no_digit_first s ->
    two64 <= dec_value ds 0 -> unreadable (bl ++ ds ++ s) s
| ur_other : forall bl c s, all_blank bl -> blank c = false -> is_digit c = false ->
    (forall v, In v vocabulary -> ~ begins v (c :: s)) -> unreadable (bl ++ c :: s) (after_error (c :: s)).

(** Adjustments: an operation, a number and a unit each. *)
Context {U : Type}.
Variable units : list (str * U).
Inductive read_adjustments : list (adjustment U) -> str -> str -> Prop :=
| ra_nil : forall s, read_adjustments [] s s
| ra_cons : forall vo o n vu u l s s1 s2 s3 s4,
    read_word vo s s1 -> In (vo, o) ops -> read_number n s1 s2 -> read_word vu s2 s3 -> In (vu, u) units ->
    read_adjustments l s3 s4 -> read_adjustments (mkAdj u n o :: l) s s4.
(** How an expression may end after the adjustments [l]: with blanks; or with one thing that is no part of it and
    white space. *)
Variable w : world.
Definition only_space (r : str) : Prop := Forall (fun c => is_space w c = true) r.
Definition stray (s r : str) : Prop :=
  (exists n, read_number n s r) \/ (exists v, read_word v s r /\ ~ In v (map fst ops)).
Definition ended (tolerant : bool) (l : list (adjustment U)) (s : str) : Prop :=
  all_blank s \/
  exists r, only_space r /\ (unreadable s r /\ (tolerant = true \/ l <> []) \/ stray s r /\ l <> []).
End Reading.

(** * Sentences *)
Section Sentences.
Variable w : world.
Variable after_error : str -> str.
(** A date: a base, or "next" or "last" with an offset, or nothing; then adjustments, at least one in the last case. *)
Inductive date_start : date_base -> list (adjustment date_offset) -> bool -> str -> str -> Prop :=
| ds_base : forall v b s s1, read_word date_vocabulary v s s1 -> In (v, b) date_bases -> date_start b [] true s s1
| ds_offset : forall v o v' u n s s1 s2, read_word date_vocabulary v s s1 -> In (v, o) directions ->
    read_word date_vocabulary v' s1 s2 -> In (v', (u, n)) date_offsets -> date_start DNow [mkAdj u n o] true s s2
| ds_none : forall s, date_start DNow [] false s s.
Definition date_sentence (e : parsed_date) (s : str) : Prop :=
  exists b pre present l s1 s2,
    e = (b, pre ++ l) /\ date_start b pre present s s1 /\ read_adjustments date_vocabulary date_units l s1 s2 /\
    (present = true \/ l <> []) /\ ended date_vocabulary after_error w true l s2.

(** A time: a base, or an hour of the clock, or "next" or "last" with a unit, or nothing. *)
Inductive time_start : time_base -> list (adjustment time_offset) -> bool -> bool -> str -> str -> Prop :=
| ts_base : forall v b s s1, read_word time_vocabulary v s s1 -> In (v, b) time_bases -> time_start b [] true true s s1
| ts_half : forall h c v b s s1 s2 s3, read_number h s s1 -> read_word time_vocabulary o_clock s1 s2 ->
    read_word time_vocabulary v s2 s3 -> In (v, c) halves -> 1 <= h <= 12 ->
    b = match c with CAm => TAm h | CPm => TPm h | CNext => TNext h end -> time_start b [] true true s s3
| ts_next : forall h s s1 s2, read_number h s s1 -> read_word time_vocabulary o_clock s1 s2 -> 1 <= h <= 12 ->
    time_start (TNext h) [] true false s s2
| ts_offset : forall v o v' u s s1 s2, read_word time_vocabulary v s s1 -> In (v, o) directions ->
    read_word time_vocabulary v' s1 s2 -> In (v', u) time_units -> time_start TNow [mkAdj u 1 o] true true s s2
| ts_none : forall s, time_start TNow [] false false s s.
Definition time_sentence (e : parsed_time) (s : str) : Prop :=
  exists b pre present tolerant l s1 s2,
    e = (b, pre ++ l) /\ time_start b pre present tolerant s s1 /\ read_adjustments time_vocabulary time_units l s1 s2 /\
    (present = true \/ l <> []) /\ ended time_vocabulary after_error w tolerant l s2.
End Sentences.
