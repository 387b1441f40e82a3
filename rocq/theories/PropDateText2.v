(** Expressions written with single spaces are read back, whatever the numbers. *)
From Coq Require Import Ascii String List Arith NArith ZArith Lia Bool.
From Verif Require Import Base Json Text TextProofs DateExpr SpecDateText DateTextProofs PropDateText PropTimeText.
Import ListNotations.
Open Scope N_scope.
Local Opaque show_N.

Definition written_op (o : operation) : str := match o with Plus => S_ "+" | Minus => S_ "-" end.
Definition written_adjustment {U} (unit_word : U -> str) (a : adjustment U) : str :=
  32 :: written_op (a_op a) ++ 32 :: show_N (a_value a) ++ 32 :: unit_word (a_type a).
Definition written_adjustments {U} (unit_word : U -> str) (l : list (adjustment U)) : str := concat (map (written_adjustment unit_word) l).
Definition written_unit (u : date_offset) : str :=
  match u with ODay => S_ "days" | OWeek => S_ "weeks" | OMonth => S_ "months" | OYear => S_ "years" | _ => [] end.
Definition written_base (b : date_base) : str :=
  match b with DNow => S_ "now" | DToday => S_ "today" | DYesterday => S_ "yesterday" | DTomorrow => S_ "tomorrow" end.
Definition written_time_unit (u : time_offset) : str :=
  match u with OHour => S_ "hours" | OMinute => S_ "minutes" | OSecond => S_ "seconds" | OMillisecond => S_ "milliseconds" end.
Definition written_time_base (b : time_base) : str :=
  match b with
  | TNow => S_ "now" | TMidnight => S_ "midnight" | TNoon => S_ "noon"
  | TAm h => show_N h ++ S_ " o'clock am" | TPm h => show_N h ++ S_ " o'clock pm" | TNext h => show_N h ++ S_ " o'clock"
  end.

(** What follows a word in such a text. *)
Definition apart (s : str) : Prop := match s with [] => True | c :: _ => c = 32 end.
Lemma apart_word : forall vocabulary v bl s, all_blank bl -> In v vocabulary -> Forall (fun v => ~ In 32 v) vocabulary -> apart s -> read_word vocabulary v (bl ++ v ++ s) s.
Proof.
  intros vocabulary v bl s B i F A. apply rd_word; [exact B|exact i|]. intros v' i' [q E]. rewrite Forall_forall in F. specialize (F v' i').
  destruct (Nat.le_gt_cases (length v') (length v)) as [L|G]; [exact L|exfalso].
  destruct s as [|c s]; cbn [apart] in A.
  - apply (f_equal (@length N)) in E. rewrite !app_length in E. cbn [length] in E. lia.
  - subst c. apply F. assert (nth_error (v ++ 32 :: s) (length v) = Some 32) as H by (rewrite nth_error_app2, Nat.sub_diag by lia; reflexivity).
    change str with (list N) in *. rewrite E, nth_error_app1 in H by exact G. apply nth_error_In in H. exact H.
Qed.
Lemma apart_number : forall n bl s, all_blank bl -> n < two64 -> apart s -> read_number n (bl ++ show_N n ++ s) s.
Proof.
  intros n bl s B L A. apply rd_number; [exact B|apply show_N_nonempty|apply show_N_digits| | |exact L].
  - destruct s; [exact I|]. cbn in A. subst. reflexivity.
  - pose proof (parse_usize_show n L) as P. rewrite parse_usize_digits in P by (apply show_N_nonempty || apply show_N_digits). destruct (_ <? two64); [|discriminate]. injection P as P. exact P.
Qed.
Lemma one_blank : all_blank [32].
Proof. constructor; [reflexivity|constructor]. Qed.
Section Adjustments.
Context {U : Type}.
Variable vocabulary : list str.
Variable units : list (str * U).
Variable unit_word : U -> str.
Hypothesis no_blanks : Forall (fun v => ~ In 32 v) vocabulary.
Hypothesis has_ops : In (S_ "+") vocabulary /\ In (S_ "-") vocabulary.
Hypothesis has_units : forall v u, In (v, u) units -> In v vocabulary.
Lemma apart_written : forall l, apart (written_adjustments unit_word l).
Proof. intros [|a l]; [exact I|reflexivity]. Qed.
Lemma written_read : forall l, Forall (fun a => a_value a < two64 /\ In (unit_word (a_type a), a_type a) units) l ->
  read_adjustments vocabulary units l (written_adjustments unit_word l) [].
Proof.
  induction l as [|[u n o] l IH]; intro F; [constructor|]. inversion F as [|? ? [Ln Iu] F']; subst. cbn [a_value a_type] in *. specialize (IH F').
  change (written_adjustments unit_word (mkAdj u n o :: l)) with (written_adjustment unit_word (mkAdj u n o) ++ written_adjustments unit_word l).
  unfold written_adjustment. cbn [a_op a_value a_type]. pose proof (apart_written l) as A.
  set (r := written_adjustments unit_word l) in *. clearbody r.
  apply (ra_cons vocabulary units (written_op o) o n (unit_word u) u l _ ([32] ++ show_N n ++ [32] ++ unit_word u ++ r) ([32] ++ unit_word u ++ r) r []).
  - replace ((32 :: written_op o ++ 32 :: show_N n ++ 32 :: unit_word u) ++ r) with ([32] ++ written_op o ++ [32] ++ show_N n ++ [32] ++ unit_word u ++ r).
    + apply apart_word; [apply one_blank|destruct o; apply has_ops|exact no_blanks|reflexivity].
    + cbn [app]. f_equal. rewrite <- app_assoc. f_equal. cbn [app]. f_equal. rewrite <- app_assoc. reflexivity.
  - destruct o; cbn; auto.
  - apply apart_number; [apply one_blank|exact Ln|reflexivity].
  - apply apart_word; [apply one_blank|apply (has_units _ _ Iu)|exact no_blanks|exact A].
  - exact Iu.
  - exact IH.
Qed.
End Adjustments.
Lemma no_blank_words : forall l : list str, forallb (fun v => negb (existsb (N.eqb 32) v)) l = true -> Forall (fun v => ~ In 32 v) l.
Proof.
  intros l H. rewrite forallb_forall in H. apply Forall_forall. intros v i b. specialize (H v i). apply negb_true_iff in H.
  assert (existsb (N.eqb 32) v = true) by (apply existsb_exists; exists 32; split; [exact b|reflexivity]). congruence.
Qed.
Lemma word_in : forall (v : str) l, existsb (str_eqb v) l = true -> In v l.
Proof. intros v l H. apply existsb_in, H. Qed.

Theorem C92_date_round_trip : forall w after_error b l,
  Forall (fun a => a_value a < two64 /\ match a_type a with ODay | OWeek | OMonth | OYear => True | _ => False end) l ->
  parse_date_expression w after_error (written_base b ++ written_adjustments written_unit l) = Some (b, l).
Proof.
  intros w ae b l F. apply C92_date_expressions. exists b, [], true, l, (written_adjustments written_unit l), [].
  repeat (match goal with |- _ /\ _ => split end); [reflexivity| | |left; reflexivity|left; constructor].
  - apply (ds_base (written_base b)); [|destruct b; cbn; auto].
    apply (apart_word date_vocabulary (written_base b) []); [constructor|apply word_in; destruct b; vm_compute; reflexivity|apply no_blank_words; vm_compute; reflexivity|apply apart_written].
  - apply written_read; [apply no_blank_words; vm_compute; reflexivity|split; apply word_in; vm_compute; reflexivity| |].
    + intros v u i. unfold date_vocabulary. apply in_app_iff. right. apply in_app_iff. right. apply in_app_iff. right. apply in_app_iff. left. apply (in_map fst _ _ i).
    + eapply Forall_impl; [|exact F]. intros a [L M]. split; [exact L|]. apply lookup_in; [vm_compute; reflexivity|]. destruct (a_type a); try destruct M; vm_compute; reflexivity.
Qed.
Theorem C92_time_round_trip : forall w after_error b l,
  match b with TAm h | TPm h | TNext h => 1 <= h <= 12 | _ => True end -> Forall (fun a => a_value a < two64) l ->
  parse_time_expression w after_error (written_time_base b ++ written_adjustments written_time_unit l) = Some (b, l).
Proof.
  intros w ae b l Hb F. apply C92_time_expressions.
  pose proof (apart_written written_time_unit l) as A.
  assert (Forall (fun v => ~ In 32 v) time_vocabulary) as NB by (apply no_blank_words; vm_compute; reflexivity).
  assert (read_adjustments time_vocabulary time_units l (written_adjustments written_time_unit l) []) as RA.
  { apply written_read; [exact NB|split; apply word_in; vm_compute; reflexivity| |].
    - intros v u i. unfold time_vocabulary. repeat (apply in_app_iff; right). apply (in_map fst _ _ i).
    - eapply Forall_impl; [|exact F]. intros a L. split; [exact L|]. apply lookup_in; [vm_compute; reflexivity|]. destruct (a_type a); vm_compute; reflexivity. }
  set (r := written_adjustments written_time_unit l) in *. clearbody r.
  assert (forall v bl s, all_blank bl -> existsb (str_eqb v) time_vocabulary = true -> apart s -> read_word time_vocabulary v (bl ++ v ++ s) s) as RW.
  { intros v bl s B i As. apply apart_word; [exact B|apply word_in, i|exact NB|exact As]. }
  assert (exists tol, time_start b [] true tol (written_time_base b ++ r) r) as (tol & St).
  { destruct b; cbn [written_time_base].
    - exists true. apply (ts_base (S_ "now")); [apply (RW _ []); [constructor|vm_compute; reflexivity|exact A]|cbn; auto].
    - exists true. apply (ts_base (S_ "midnight")); [apply (RW _ []); [constructor|vm_compute; reflexivity|exact A]|cbn; auto].
    - exists true. apply (ts_base (S_ "noon")); [apply (RW _ []); [constructor|vm_compute; reflexivity|exact A]|cbn; auto].
    - exists true. rewrite <- app_assoc. apply (ts_half hour CAm (S_ "am") _ _ (S_ " o'clock am" ++ r) (S_ " am" ++ r)); [| | |cbn; auto|exact Hb|reflexivity].
      + apply (apart_number hour []); [constructor|unfold two64; lia|reflexivity].
      + apply (RW o_clock [32]); [apply one_blank|vm_compute; reflexivity|reflexivity].
      + apply (RW (S_ "am") [32]); [apply one_blank|vm_compute; reflexivity|exact A].
    - exists true. rewrite <- app_assoc. apply (ts_half hour CPm (S_ "pm") _ _ (S_ " o'clock pm" ++ r) (S_ " pm" ++ r)); [| | |cbn; auto|exact Hb|reflexivity].
      + apply (apart_number hour []); [constructor|unfold two64; lia|reflexivity].
      + apply (RW o_clock [32]); [apply one_blank|vm_compute; reflexivity|reflexivity].
      + apply (RW (S_ "pm") [32]); [apply one_blank|vm_compute; reflexivity|exact A].
    - exists false. rewrite <- app_assoc. apply (ts_next hour _ (S_ " o'clock" ++ r)); [| |exact Hb].
      + apply (apart_number hour []); [constructor|unfold two64; lia|reflexivity].
      + apply (RW o_clock [32]); [apply one_blank|vm_compute; reflexivity|exact A]. }
  exists b, [], true, tol, l, r, []. repeat (match goal with |- _ /\ _ => split end); [reflexivity|exact St|exact RA|left; reflexivity|left; constructor].
Qed.
