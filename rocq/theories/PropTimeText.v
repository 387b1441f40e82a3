(** The texts that are time expressions, exactly. *)
From Coq Require Import Ascii String List Arith NArith ZArith Lia Bool.
From Verif Require Import Base Json Text TextProofs DateExpr SpecDateText DateTextProofs PropDateText.
Import ListNotations.
Open Scope N_scope.

Section Time.
Variable w : world.
Variable after_error : str -> str.
Notation next := (time_next after_error).
Lemma time_distinct : NoDup (map fst time_words).
Proof. apply distinctb_spec. vm_compute. reflexivity. Qed.
Lemma time_same : forall v, In v time_vocabulary <-> In v (map fst time_words).
Proof. apply mutual. vm_compute. reflexivity. Qed.
Lemma time_starts : forall v, In v time_vocabulary -> exists c v', v = c :: v' /\ blank c = false /\ is_digit c = false.
Proof. apply starts. tabulated. Qed.
Lemma time_op_words : forall v t o, In (v, t) time_words -> (time_op t = Some o <-> In (v, o) ops).
Proof. apply table; [vm_compute; reflexivity|tabulated]. Qed.
Lemma time_unit_words : forall v t o, In (v, t) time_words -> (time_unit t = Some o <-> In (v, o) time_units).
Proof. apply table; [vm_compute; reflexivity|tabulated]. Qed.
Definition plain_base (t : time_token) : option time_base := match t with HNow => Some TNow | HMidnight => Some TMidnight | HNoon => Some TNoon | _ => None end.
Lemma time_base_words : forall v t o, In (v, t) time_words -> (plain_base t = Some o <-> In (v, o) time_bases).
Proof. apply table; [vm_compute; reflexivity|tabulated]. Qed.
Definition time_direction_of (t : time_token) : option operation := match t with HNext => Some Plus | HLast => Some Minus | _ => None end.
Lemma time_direction_words : forall v t o, In (v, t) time_words -> (time_direction_of t = Some o <-> In (v, o) directions).
Proof. apply table; [vm_compute; reflexivity|tabulated]. Qed.
Definition half_of (t : time_token) : option clock_hour := match t with HAm => Some CAm | HPm => Some CPm | _ => None end.
Lemma half_words : forall v t o, In (v, t) time_words -> (half_of t = Some o <-> In (v, o) halves).
Proof. apply table; [vm_compute; reflexivity|tabulated]. Qed.
Definition is_o_clock (t : time_token) : option unit := match t with HOClock => Some tt | _ => None end.
Lemma o_clock_words : forall v t o, In (v, t) time_words -> (is_o_clock t = Some o <-> In (v, o) [(o_clock, tt)]).
Proof. apply table; [vm_compute; reflexivity|tabulated]. Qed.
Lemma time_number_words : forall v t, In (v, t) time_words -> time_number t = None.
Proof. intros v t i. assert (Forall (fun e : str * time_token => time_number (snd e) = None) time_words) as F by tabulated. rewrite Forall_forall in F. apply (F _ i). Qed.

Let cases := next_cases time_words HDigits after_error time_vocabulary time_distinct time_same.
Let token := word_token time_words HDigits after_error time_vocabulary time_distinct time_same time_starts.
Let num := read_number_next time_words HDigits after_error.
Let fin := finished_more time_words HDigits after_error time_vocabulary time_distinct time_same time_starts time_op time_number time_unit time_units
  time_op_words (fun n => eq_refl) time_number_words (fun n => eq_refl) time_unit_words (fun n => eq_refl) w.
Let fin_e := next_end time_words HDigits after_error.
Let fin_u := unreadable_next time_words HDigits after_error time_vocabulary time_same.

Lemma next_o_clock : forall s s1, time_next after_error s = LToken HOClock s1 <-> read_word time_vocabulary o_clock s s1.
Proof.
  intros s s1. split.
  - intro E. pose proof (cases s) as C. unfold time_next in E. rewrite E in C. destruct C as [(v & i & R)|(n & H & _)]; [|discriminate].
    pose proof (proj1 (o_clock_words v HOClock tt i) eq_refl) as H. cbn [In] in H. destruct H as [H|[]]. injection H as <-. exact R.
  - intro R. destruct (token _ _ _ R) as (t & i & E). unfold time_next. rewrite E. pose proof (proj2 (o_clock_words _ t tt i) (or_introl eq_refl)) as H. destruct t; try discriminate. reflexivity.
Qed.
Lemma next_half : forall s c s1, (exists t, time_next after_error s = LToken t s1 /\ half_of t = Some c) <-> (exists v, read_word time_vocabulary v s s1 /\ In (v, c) halves).
Proof.
  intros s c s1. split.
  - intros (t & E & H). pose proof (cases s) as C. unfold time_next in E. rewrite E in C. destruct C as [(v & i & R)|(n & -> & _)]; [|discriminate].
    exists v. split; [exact R|apply (half_words v t c i), H].
  - intros (v & R & i). destruct (token _ _ _ R) as (t & it & E). exists t. split; [exact E|apply (half_words v t c it), i].
Qed.
(** With no start and no adjustment there is nothing to end. *)
Lemma not_over : forall t s s1 l s2, time_next after_error s = LToken t s1 -> read_adjustments time_vocabulary time_units l s s2 ->
  ended time_vocabulary after_error w true l s2 -> l <> [].
Proof.
  intros t s s1 l s2 E RA En ->. inversion RA; subst. destruct En as [B|(r & O & [(Un & _)|[_ N]])]; [| |contradiction].
  - apply fin_e in B. unfold time_next in E. congruence.
  - apply fin_u in Un. unfold time_next in E. congruence.
Qed.
Lemma ended_weaken : forall t l s, ended time_vocabulary after_error w t l s -> ended (U := time_offset) time_vocabulary after_error w true l s.
Proof. intros t l s [B|(r & O & [(Un & Tl)|H])]; [left; exact B|right; exists r; auto|right; exists r; auto]. Qed.
Lemma ended_more : forall l s, l <> [] -> ended time_vocabulary after_error w true l s -> ended (U := time_offset) time_vocabulary after_error w false l s.
Proof. intros l s N [B|(r & O & [(Un & Tl)|H])]; [left; exact B|right; exists r; auto|right; exists r; auto]. Qed.

Definition result_of (s : str) : option parsed_time :=
  finished w
    match time_next after_error s with
    | LToken t s1 =>
        match t with
        | HNow | HMidnight | HNoon | HDigits _ =>
            match time_base_expr after_error t s1 with
            | Some (b, l) => option_map (fun r => ((b, fst r), snd r)) (time_more after_error l)
            | None => None
            end
        | HOp _ => option_map (fun r => ((TNow, fst r), snd r)) (time_more after_error (LToken t s1))
        | HNext => time_offset_expr after_error Plus s1
        | HLast => time_offset_expr after_error Minus s1
        | _ => None
        end
    | _ => None
    end.
Lemma hour_of_clock : forall h c b, time_base_of_hour h c = Some b <-> 1 <= h <= 12 /\ b = match c with CAm => TAm h | CPm => TPm h | CNext => TNext h end.
Proof.
  intros h c b. unfold time_base_of_hour. destruct ((1 <=? h) && (h <=? 12)) eqn:Q.
  - apply andb_true_iff in Q. destruct Q as [A B]. apply N.leb_le in A. apply N.leb_le in B. split; [intro H; injection H as <-; auto|intros [_ ->]; reflexivity].
  - split; [discriminate|]. intros [[A B] _]. apply N.leb_le in A. apply N.leb_le in B. rewrite A, B in Q. discriminate.
Qed.
Lemma plain_start : forall v b s s1 s2 l, read_word time_vocabulary v s s1 -> In (v, b) time_bases -> read_adjustments time_vocabulary time_units l s1 s2 ->
  ended time_vocabulary after_error w true l s2 -> time_sentence w after_error (b, l) s.
Proof. intros v b s s1 s2 l R i RA En. exists b, [], true, true, l, s1, s2. repeat (match goal with |- _ /\ _ => split end); auto. apply (ts_base v); assumption. Qed.

Theorem C92_time_expressions : forall s e, parse_time_expression w after_error s = Some e <-> time_sentence w after_error e s.
Proof.
  intros s e. change (parse_time_expression w after_error s) with (result_of s). unfold result_of. split.
  - destruct (next s) as [|t s1|s1] eqn:E; try discriminate. pose proof (cases s) as C. unfold time_next in E. rewrite E in C.
    assert (forall b, plain_base t = Some b -> finished w (option_map (fun r => ((b, fst r), snd r)) (time_more after_error (next s1))) = Some e -> time_sentence w after_error e s) as Plain.
    { intros b Bt H. apply (finished_map w _ _ (fun r => (b, r))) in H. destruct H as (l & H & ->). apply fin in H. destruct H as (s2 & RA & En).
      destruct C as [(v & i & R)|(n & -> & R)]; [|discriminate]. apply (plain_start v b s s1 s2 l); auto. apply (time_base_words v t b i), Bt. }
    assert (forall o, time_direction_of t = Some o -> finished w (time_offset_expr after_error o s1) = Some e -> time_sentence w after_error e s) as Off.
    { intros o Ot H. destruct C as [(v & i & R)|(n & -> & R)]; [|discriminate]. unfold time_offset_expr in H. destruct (next s1) as [|t' s2|] eqn:E2; try discriminate. pose proof (cases s1) as C2. unfold time_next in E2. rewrite E2 in C2.
      destruct (time_unit t') as [u|] eqn:Ot'; [|discriminate]. apply (finished_map w _ _ (fun r => (TNow, mkAdj u 1 o :: r))) in H. destruct H as (l & H & ->). apply fin in H. destruct H as (s3 & RA & En).
      destruct C2 as [(v' & i' & R')|(m & -> & R')]; [|discriminate]. exists TNow, [mkAdj u 1 o], true, true, l, s2, s3. repeat (match goal with |- _ /\ _ => split end); auto.
      apply (ts_offset v o v' u s s1 s2); [exact R|apply (time_direction_words v t o i), Ot|exact R'|apply (time_unit_words v' t' u i'), Ot']. }
    destruct t; try discriminate.
    + apply Plain. reflexivity.
    + apply Plain. reflexivity.
    + apply Plain. reflexivity.
    + intro H. apply (finished_map w _ _ (fun r => (TNow, r))) in H. destruct H as (l & H & ->). unfold time_more in H. rewrite <- E in H. apply fin in H. destruct H as (s2 & RA & En).
      pose proof (not_over _ _ _ _ _ E RA En) as Nl.
      exists TNow, [], false, false, l, s, s2. repeat (match goal with |- _ /\ _ => split end); auto; [constructor|apply ended_more; assumption].
    + apply Off. reflexivity.
    + apply Off. reflexivity.
    + (* an hour of the clock *)
      destruct C as [(v & i & R)|(n' & En' & R)]; [pose proof (time_number_words _ _ i); discriminate|]. injection En' as <-. cbn [time_base_expr]. unfold oclock.
      destruct (next s1) as [|t1 s2|] eqn:E1; try discriminate. destruct t1; try discriminate. apply next_o_clock in E1.
      destruct (next s2) as [|t2 s3|] eqn:E2; try discriminate.
      * (* the end *)
        destruct (time_base_of_hour n CNext) as [b|] eqn:Hb; [|discriminate]. cbn [option_map]. intro H. apply (finished_map w _ _ (fun r => (b, r))) in H. destruct H as (l & H & ->).
        apply hour_of_clock in Hb. destruct Hb as [Hn ->]. cbn in H. injection H as <-. pose proof E2 as B. apply fin_e in B.
        exists (TNext n), [], true, false, [], s2, s2. repeat (match goal with |- _ /\ _ => split end); auto; [|constructor|left; exact B]. apply (ts_next n s s1 s2); assumption.
      * assert (forall c, half_of t2 = Some c -> finished w (match option_map (fun b => (b, next s3)) (time_base_of_hour n c) with
                  | Some (b, l) => option_map (fun r => ((b, fst r), snd r)) (time_more after_error l) | None => None end) = Some e -> time_sentence w after_error e s) as Half.
        { intros c Ht H. destruct (time_base_of_hour n c) as [b|] eqn:Hb; [|discriminate]. cbn [option_map] in H. apply (finished_map w _ _ (fun r => (b, r))) in H. destruct H as (l & H & ->).
          apply hour_of_clock in Hb. destruct Hb as [Hn Hb]. apply fin in H. destruct H as (s4 & RA & En). destruct (proj1 (next_half s2 c s3)) as (v & Rv & iv); [eauto|].
          exists b, [], true, true, l, s3, s4. repeat (match goal with |- _ /\ _ => split end); auto. apply (ts_half n c v b s s1 s2 s3); assumption. }
        assert (half_of t2 = None -> finished w (match option_map (fun b => (b, LToken t2 s3)) (time_base_of_hour n CNext) with
                  | Some (b, l) => option_map (fun r => ((b, fst r), snd r)) (time_more after_error l) | None => None end) = Some e -> time_sentence w after_error e s) as None_.
        { intros Ht H. destruct (time_base_of_hour n CNext) as [b|] eqn:Hb; [|discriminate]. cbn [option_map] in H. apply (finished_map w _ _ (fun r => (b, r))) in H. destruct H as (l & H & ->).
          apply hour_of_clock in Hb. destruct Hb as [Hn ->]. unfold time_more in H. rewrite <- E2 in H. apply fin in H. destruct H as (s4 & RA & En). pose proof (not_over _ _ _ _ _ E2 RA En) as Nl.
          exists (TNext n), [], true, false, l, s2, s4. repeat (match goal with |- _ /\ _ => split end); auto; [|apply ended_more; assumption]. apply (ts_next n s s1 s2); assumption. }
        destruct t2; try (exact (None_ eq_refl)); [exact (Half CAm eq_refl)|exact (Half CPm eq_refl)].
  - intros (b & pre & present & tol & l & s1 & s2 & -> & St & RA & Pr & En). pose proof (proj2 (fin s1 l) (ex_intro _ s2 (conj RA (ended_weaken _ _ _ En)))) as F.
    destruct St as [v b s s1 R i|h c v b s s1 s2' s3 R1 R2 R3 i Hh Eb|h s s1 s2' R1 R2 Hh|v o v' u s s1 s2' R i R' i'|s].
    + destruct (token v s s1 R) as (t & it & E). unfold time_next at 1. rewrite E. apply (time_base_words v t b it) in i.
      assert (finished w (option_map (fun r => ((b, fst r), snd r)) (time_more after_error (next s1))) = Some (b, [] ++ l)) as G by (apply (finished_map w _ _ (fun r => (b, r))); exists l; split; [exact F|reflexivity]).
      destruct t; try discriminate; injection i as <-; exact G.
    + unfold time_next at 1. rewrite (num _ _ _ R1). cbn [time_base_expr]. unfold oclock. rewrite (proj2 (next_o_clock s1 s2') R2).
      destruct (proj2 (next_half s2' c s3)) as (t & E & Ht); [eauto|]. rewrite E.
      assert (finished w (match option_map (fun b => (b, next s3)) (time_base_of_hour h c) with
                  | Some (b, l) => option_map (fun r => ((b, fst r), snd r)) (time_more after_error l) | None => None end) = Some (b, [] ++ l)) as G.
      { rewrite (proj2 (hour_of_clock h c b) (conj Hh Eb)). cbn [option_map]. apply (finished_map w _ _ (fun r => (b, r))); exists l; split; [exact F|reflexivity]. }
      destruct t; try discriminate; injection Ht as <-; exact G.
    + unfold time_next at 1. rewrite (num _ _ _ R1). cbn [time_base_expr]. unfold oclock. rewrite (proj2 (next_o_clock s1 s2') R2).
      assert (forall lx, lx = next s2' -> finished w (match option_map (fun b => (b, lx)) (time_base_of_hour h CNext) with
                  | Some (b, l) => option_map (fun r => ((b, fst r), snd r)) (time_more after_error l) | None => None end) = Some (TNext h, [] ++ l)) as G.
      { intros lx ->. rewrite (proj2 (hour_of_clock h CNext (TNext h)) (conj Hh eq_refl)). cbn [option_map]. apply (finished_map w _ _ (fun r => (TNext h, r))); exists l; split; [exact F|reflexivity]. }
      destruct RA as [s2|vo o n vu u l s2' s4 s5 s6 s7 Ro io Rn Ru iu RA].
      * destruct En as [B|(r & O & [(Un & [Tl|N])|[_ N]])]; try discriminate; try contradiction. apply fin_e in B. unfold time_next at 1. rewrite B. apply G. unfold time_next. symmetry. exact B.
      * destruct (token vo s2' s4 Ro) as (t & it & E). specialize (G (LToken t s4)). unfold time_next in G. specialize (G (eq_sym E)). unfold time_next at 1. rewrite E. apply (time_op_words vo t o it) in io. destruct t; try discriminate. exact G.
    + destruct (token v s s1 R) as (t & it & E). unfold time_next at 1. rewrite E. apply (time_direction_words v t o it) in i.
      destruct (token v' s1 s2' R') as (t' & it' & E'). apply (time_unit_words v' t' u it') in i'.
      assert (finished w (time_offset_expr after_error o s1) = Some (TNow, [mkAdj u 1 o] ++ l)) as O.
      { unfold time_offset_expr. unfold time_next at 1. rewrite E', i'. apply (finished_map w _ _ (fun r => (TNow, mkAdj u 1 o :: r))). exists l. split; [exact F|reflexivity]. }
      destruct t; try discriminate; injection i as <-; exact O.
    + destruct Pr as [Pr|Pr]; [discriminate|]. destruct RA as [|vo o n vu u l s s1' s2' s3 s4 Ro io Rn Ru iu RA]; [contradiction|].
      destruct (token vo s s1' Ro) as (t & it & E). unfold time_next at 1. rewrite E. apply (time_op_words vo t o it) in io. destruct t; try discriminate.
      apply (finished_map w _ _ (fun r => (TNow, r))). exists (mkAdj u n o :: l). split; [|reflexivity]. unfold time_more. rewrite <- E. exact F.
Qed.
End Time.
