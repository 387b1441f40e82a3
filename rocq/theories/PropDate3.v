(** Texts as dates and times; the documented examples; peculiarities. *)
From Coq Require Import Ascii String List Arith NArith ZArith Lia Bool.
From Verif Require Import Base Json Text TextProofs Calendar DateExpr DateEval SpecDate SpecDateText DateTextProofs PropDate PropDate2 PropTime PropDateText PropTimeText.
Import ListNotations.
Open Scope Z_scope.

Section Texts.
Variable first last : Z.
Hypothesis sane : - 1000000 <= first /\ last <= 1000000.
Variable w : world.
Variable after_error : str -> str.
(** What a text means: the empty one leaves the time as it is. *)
Definition date_means (s : str) (t t' : Z) : Prop :=
  s = [] /\ t' = t \/ s <> [] /\ exists e, date_sentence w after_error e s /\ denotes_date first last e t t'.
Definition time_means (s : str) (t t' : Z) : Prop :=
  s = [] /\ t' = t \/ s <> [] /\ exists e, time_sentence w after_error e s /\ denotes_time first last e t t'.
(** The numbers in it are below 2^30. *)
Definition moderate_date (s : str) : Prop := forall e, date_sentence w after_error e s -> Forall (fun a => (a_value a < 2 ^ 30)%N) (snd e).
Definition moderate_time (s : str) : Prop := forall e, time_sentence w after_error e s -> Forall (fun a => (a_value a < 2 ^ 30)%N) (snd e).

Lemma adjustments_units : forall U vocabulary (units : list (str * U)) l s s', read_adjustments vocabulary units l s s' -> Forall (fun a => exists v, In (v, a_type a) units) l.
Proof. induction 1; constructor; [cbn [a_type]; eauto|assumption]. Qed.
Definition real_unit (u : date_offset) : Prop := match u with OWeekday d => (d < 7)%N | OMonthName m => (1 <= m <= 12)%N | _ => True end.
Lemma units_real : forall v u, In (v, u) date_units -> real_unit u.
Proof.
  intros v u i. assert (Forall (fun e : str * date_offset => real_unit (snd e)) date_units) as F by (repeat (apply Forall_cons; [exact I|]); apply Forall_nil).
  rewrite Forall_forall in F. apply (F _ i).
Qed.
Lemma offsets_real : forall v u n, In (v, (u, n)) date_offsets -> real_unit u.
Proof.
  intros v u n i. assert (Forall (fun e : str * (date_offset * N) => real_unit (fst (snd e))) date_offsets) as F.
  { unfold date_offsets. cbn [map app]. repeat (apply Forall_cons; [cbn [fst snd real_unit]; try exact I; lia|]); apply Forall_nil. }
  rewrite Forall_forall in F. apply (F _ i).
Qed.
Lemma sentence_proper : forall e s, date_sentence w after_error e s -> Forall (fun a => (a_value a < 2 ^ 30)%N) (snd e) -> Forall proper (snd e).
Proof.
  intros e s (b & pre & present & l & s1 & s2 & -> & St & RA & _) M. cbn [snd] in *. apply adjustments_units in RA. rewrite Forall_forall in *.
  intros a i. split; [apply M, i|]. change (real_unit (a_type a)). apply in_app_iff in i. destruct i as [i|i].
  - destruct St as [v b s s1 R iv|v o v' u n s s1 s2' R iv R' i'|s]; [destruct i| |destruct i]. destruct i as [<- |[]]. apply (offsets_real _ _ _ i').
  - destruct (RA a i) as (v & iv). apply (units_real v), iv.
Qed.
Lemma sentence_hours : forall e s, time_sentence w after_error e s -> Forall (fun a => (a_value a < 2 ^ 30)%N) (snd e) -> proper_time e.
Proof.
  intros e s (b & pre & present & tol & l & s1 & s2 & -> & St & RA & _) M. split; [|exact M]. cbn [fst].
  destruct St as [v b s s1 R iv|h c v b s s1 s2' s3 R1 R2 R3 i Hh Eb|h s s1 s2' R1 R2 Hh|v o v' u s s1 s2' R i R' i'|s]; try exact I; try exact Hh.
  - cbn [time_bases In] in iv. destruct iv as [iv|[iv|[iv|[]]]]; injection iv as _ <-; exact I.
  - subst b. destruct c; exact Hh.
Qed.

Theorem C94_date_texts : forall s t t', moderate_date s -> in_years first last t ->
  (execute_date_expression first last w after_error t s = Ok t' <-> date_means s t t').
Proof.
  intros s t t' M Y. unfold date_means. destruct s as [|c s].
  - cbn. split; [intro H; injection H as <-; left; auto|]. intros [[_ ->]|[N _]]; [reflexivity|contradiction].
  - set (x := c :: s) in *. assert (x <> []) as Nx by discriminate.
    replace (execute_date_expression first last w after_error t x) with (parsed (parse_date_expression w after_error x) (fun e => eval_date first last e t)) by reflexivity.
    unfold parsed. split.
    + destruct (parse_date_expression w after_error x) as [e|] eqn:P; [|discriminate]. intro E. right. split; [exact Nx|]. apply C92_date_expressions in P. exists e. split; [exact P|].
      apply C93_date_evaluation; [exact sane|apply (sentence_proper e x P), M, P|exact Y|exact E].
    + intros [[N _]|(_ & e & P & D)]; [contradiction|]. rewrite (proj2 (C92_date_expressions w after_error x e) P). apply C93_date_evaluation; [exact sane|apply (sentence_proper e x P), M, P|exact Y|exact D].
Qed.
Theorem C94_time_texts : forall s t t', moderate_time s -> in_years first last t ->
  (execute_time_expression first last w after_error t s = Ok t' <-> time_means s t t').
Proof.
  intros s t t' M Y. unfold time_means. destruct s as [|c s].
  - cbn. split; [intro H; injection H as <-; left; auto|]. intros [[_ ->]|[N _]]; [reflexivity|contradiction].
  - set (x := c :: s) in *. assert (x <> []) as Nx by discriminate.
    replace (execute_time_expression first last w after_error t x) with (parsed (parse_time_expression w after_error x) (fun e => eval_time first last e t)) by reflexivity.
    unfold parsed. split.
    + destruct (parse_time_expression w after_error x) as [e|] eqn:P; [|discriminate]. intro E. right. split; [exact Nx|]. apply C92_time_expressions in P. exists e. split; [exact P|].
      apply C94_time_evaluation; [apply (sentence_hours e x P), M, P|exact Y|exact E].
    + intros [[N _]|(_ & e & P & D)]; [contradiction|]. rewrite (proj2 (C92_time_expressions w after_error x e) P). apply C94_time_evaluation; [apply (sentence_hours e x P), M, P|exact Y|exact D].
Qed.
Lemma split_at_none : forall s, split_at s = None <-> ~ In 64%N s.
Proof.
  induction s as [|c s IH]; cbn [split_at In]; [tauto|]. destruct (c =? 64)%N eqn:E.
  - apply N.eqb_eq in E. split; [discriminate|tauto].
  - apply N.eqb_neq in E. destruct (split_at s) as [[a b]|]; cbn [option_map]; split; try discriminate; try tauto.
    intro H. exfalso. apply H. right. destruct IH as [_ IH]. destruct (in_dec N.eq_dec 64%N s) as [i|n]; [exact i|]. specialize (IH n). discriminate.
Qed.
Lemma split_at_some : forall s a b, split_at s = Some (a, b) <-> s = a ++ 64%N :: b /\ ~ In 64%N a.
Proof.
  induction s as [|c s IH]; intros a b; cbn [split_at].
  - split; [discriminate|]. intros [E _]. destruct a; discriminate.
  - destruct (c =? 64)%N eqn:E.
    + apply N.eqb_eq in E. subst c. split; [intro H; injection H as <- <-; split; [reflexivity|intros []]|]. intros [H N]. destruct a as [|x a]; injection H; [intros ->; reflexivity|].
      intros _ <-. exfalso. apply N. left. reflexivity.
    + apply N.eqb_neq in E. split.
      * destruct (split_at s) as [[p q]|] eqn:Q; [|discriminate]. cbn [option_map fst snd]. intro H. injection H as <- <-. destruct (proj1 (IH p q) eq_refl) as [-> N]. split; [reflexivity|]. intros [H|H]; [congruence|contradiction].
      * intros [H N]. destruct a as [|x a]; [injection H as -> ->; contradiction|]. injection H as <- ->. rewrite (proj2 (IH a b)); [reflexivity|]. split; [reflexivity|]. intro i. apply N. right. exact i.
Qed.
(** A date, an "@" and a time: first the one, then the other. *)
Theorem C94_datetime_texts : forall t t', in_years first last t ->
  execute_datetime_expression first last w after_error t [] = Ok t /\
  (forall s, ~ In 64%N s -> moderate_date s -> (execute_datetime_expression first last w after_error t s = Ok t' <-> date_means s t t')) /\
  (forall d e, ~ In 64%N d -> moderate_date d -> moderate_time e ->
    (execute_datetime_expression first last w after_error t (d ++ 64%N :: e) = Ok t' <-> exists t1, date_means d t t1 /\ time_means e t1 t')).
Proof.
  intros t t' Y. split; [reflexivity|]. split.
  - intros s N M. destruct s as [|c s]; [apply (C94_date_texts [] t t' M Y)|]. unfold execute_datetime_expression. rewrite (proj2 (split_at_none _) N). apply C94_date_texts; assumption.
  - intros d e N Md Me. assert (execute_datetime_expression first last w after_error t (d ++ 64%N :: e) =
      match execute_date_expression first last w after_error t d with
      | Ok t' => execute_time_expression first last w after_error t' e
      | Err _ => match execute_time_expression first last w after_error t e with Panic => Panic | _ => Err tt end
      | Panic => Panic
      end) as ->.
    { unfold execute_datetime_expression. rewrite (proj2 (split_at_some _ d e) (conj eq_refl N)). destruct d; reflexivity. }
    assert (forall t1, date_means d t t1 -> in_years first last t1) as Ys.
    { intros t1 [[_ ->]|(_ & x & _ & t0 & B & Y0 & C)]; [exact Y|apply (chain_years _ _ _ _ _ _ _ C Y0)]. }
    split.
    + destruct (execute_date_expression first last w after_error t d) as [t1| |] eqn:E.
      * intro H. apply C94_date_texts in E; [|exact Md|exact Y]. exists t1. split; [exact E|]. apply C94_time_texts; [exact Me|apply Ys, E|exact H].
      * destruct (execute_time_expression first last w after_error t e); discriminate.
      * discriminate.
    + intros (t1 & D & T). rewrite (proj2 (C94_date_texts d t t1 Md Y) D). apply C94_time_texts; [exact Me|apply Ys, D|exact T].
Qed.
End Texts.

(** * The documentation *)
Definition chrono_first : Z := -262143.
Definition chrono_last : Z := 262142.
Definition moment (y m d h mi ms : Z) : Z := at_day (day_number (mkDate y m d)) (((h * 60 + mi) * 60000 + ms) * 1000000).
(** datetime_expressions.rs:7-57, at 2000-01-01T10:00. *)
Definition documented : list (string * Z) := [
  ("", moment 2000 1 1 10 0 0); ("now", moment 2000 1 1 10 0 0); ("today", moment 2000 1 1 10 0 0);
  ("yesterday", moment 1999 12 31 10 0 0); ("tomorrow", moment 2000 1 2 10 0 0); ("+ 1 day", moment 2000 1 2 10 0 0);
  ("+ 1 week", moment 2000 1 8 10 0 0); ("- 2 weeks", moment 1999 12 18 10 0 0); ("+ 4 years", moment 2004 1 1 10 0 0);
  ("tomorrow+ 4 years", moment 2004 1 2 10 0 0); ("next week", moment 2000 1 8 10 0 0); ("last month", moment 1999 12 1 10 0 0);
  ("next fortnight", moment 2000 1 15 10 0 0); ("next monday", moment 2000 1 3 10 0 0); ("last wednesday", moment 1999 12 29 10 0 0);
  ("next mon", moment 2000 1 3 10 0 0); ("last december", moment 1999 12 1 10 0 0); ("next jan", moment 2001 1 1 10 0 0);
  ("next june + 2 weeks", moment 2000 6 15 10 0 0); ("last mon + 2 weeks", moment 2000 1 10 10 0 0); ("+ 1 day - 2 weeks", moment 1999 12 19 10 0 0);
  ("last december + 2 weeks + 4 days", moment 1999 12 19 10 0 0);
  ("@ now", moment 2000 1 1 10 0 0); ("@ midnight", moment 2000 1 1 0 0 0); ("@ noon", moment 2000 1 1 12 0 0);
  ("@ 2 o'clock", moment 2000 1 1 14 0 0); ("@ 12 o'clock am", moment 2000 1 1 12 0 0); ("@ 1 o'clock pm", moment 2000 1 1 13 0 0);
  ("@ + 1 hour", moment 2000 1 1 11 0 0); ("@ - 2 minutes", moment 2000 1 1 9 58 0); ("@ + 4 seconds", moment 2000 1 1 10 0 4000);
  ("@ + 4 milliseconds", moment 2000 1 1 10 0 4); ("@ midnight+ 4 minutes", moment 2000 1 1 0 4 0); ("@ next hour", moment 2000 1 1 11 0 0);
  ("@ last minute", moment 2000 1 1 9 59 0); ("@ now + 2 hours - 4 minutes", moment 2000 1 1 11 56 0); ("@  + 2 hours - 4 minutes", moment 2000 1 1 11 56 0);
  ("today @ 1 o'clock", moment 2000 1 1 13 0 0); ("yesterday @ midnight", moment 1999 12 31 0 0 0); ("yesterday @ midnight - 1 hour", moment 1999 12 30 23 0 0);
  ("tomorrow @ now", moment 2000 1 2 10 0 0); ("+ 1 day @ noon", moment 2000 1 2 12 0 0); ("+ 1 week @ +1 hour", moment 2000 1 8 11 0 0);
  ("- 2 weeks @ now + 1 hour", moment 1999 12 18 11 0 0); ("+ 4 years @ midnight", moment 2004 1 1 0 0 0);
  ("tomorrow+ 4 years @ 3 o'clock + 40 milliseconds", moment 2004 1 2 15 0 40); ("next week @ next hour", moment 2000 1 8 11 0 0);
  ("last month @ last hour", moment 1999 12 1 9 0 0)]%string.
Definition at_moment (w : world) (after_error : str -> str) (t : Z) (s : string) : result :=
  execute_datetime_expression chrono_first chrono_last w after_error t (S_ s).
Theorem C94_documented : forall w after_error,
  Forall (fun e => at_moment w after_error (moment 2000 1 1 10 0 0) (fst e) = Ok (snd e)) documented.
Proof. intros w ae. unfold documented. repeat (apply Forall_cons; [vm_compute; reflexivity|]). apply Forall_nil. Qed.

(** * Peculiarities *)
(** Twelve o'clock: am is noon, pm changes nothing. *)
Theorem C94_twelve_o_clock : forall w after_error,
  at_moment w after_error (moment 2000 1 1 10 30 0) "@ 12 o'clock am" = Ok (moment 2000 1 1 12 0 0) /\
  at_moment w after_error (moment 2000 1 1 10 30 0) "@ 12 o'clock pm" = Ok (moment 2000 1 1 10 30 0).
Proof. intros. vm_compute. auto. Qed.
(** The end of a month: forward to the first day, back to the last one; a leap day stays. *)
Theorem C93_ends_of_months : forall w after_error,
  at_moment w after_error (moment 2023 1 31 10 0 0) "+ 1 month" = Ok (moment 2023 2 1 10 0 0) /\
  at_moment w after_error (moment 2023 3 31 10 0 0) "- 1 month" = Ok (moment 2023 2 28 10 0 0) /\
  at_moment w after_error (moment 2024 2 29 10 0 0) "+ 1 year" = Ok (moment 2024 2 29 10 0 0).
Proof. intros. vm_compute. auto. Qed.
(** Numbers that are too large: years are taken modulo 2^32, large amounts panic or lead back. *)
Theorem C93_large_amounts : forall w after_error,
  at_moment w after_error (moment 2000 1 1 10 0 0) "+ 4294967297 years" = Ok (moment 2001 1 1 10 0 0) /\
  at_moment w after_error (moment 2000 1 1 10 0 0) "+ 100000000 days" = Panic /\
  at_moment w after_error (moment 2000 1 1 10 0 0) "+ 20000000 weeks" = Panic /\
  at_moment w after_error (moment 2000 1 1 10 0 0) "+ 18446744073709551615 days" = Ok (moment 1999 12 31 10 0 0) /\
  at_moment w after_error (moment 2000 1 1 10 0 0) "+ 100000000000 weeks" = Err tt /\
  at_moment w after_error (moment 2000 1 1 10 0 0) "+ 18446744073709551616 days" = Err tt.
Proof. intros. vm_compute. repeat split. Qed.
(** One more word, or a wrong one, at the end is not noticed; a blank before "@" is an error. *)
Theorem C92_leftovers : forall w after_error,
  at_moment w after_error (moment 2000 1 1 10 0 0) "+ 1 day yesterday" = Ok (moment 2000 1 2 10 0 0) /\
  at_moment w after_error (moment 2000 1 1 10 0 0) "+ 1 day yesterday yesterday" = Err tt /\
  at_moment w after_error (moment 2000 1 1 10 0 0) "now yesterday" = Err tt /\
  at_moment w (fun s => tl s) (moment 2000 1 1 10 0 0) "now %" = Ok (moment 2000 1 1 10 0 0) /\
  at_moment w after_error (moment 2000 1 1 10 0 0) "@ now" = Ok (moment 2000 1 1 10 0 0) /\
  at_moment w after_error (moment 2000 1 1 10 0 0) " @ now" = Err tt.
Proof. intros. vm_compute. repeat split. Qed.
