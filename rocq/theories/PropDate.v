(** Date expressions denote the points in time of SpecDate.v. *)
From Coq Require Import Ascii String List Arith NArith ZArith Lia Bool.
From Coq Require Import ZifyBool ZifyN ZifyNat.
From Verif Require Import Base Json Text Calendar CalendarProofs CalendarProofs2 DateExpr DateEval SpecDate DateProofs.
Import ListNotations.
Open Scope Z_scope.
Ltac Zify.zify_post_hook ::= Z.div_mod_to_equations.

(** The calendar is that of the days one after another. *)
Theorem C93_calendar : civil 0 = mkDate 1970 1 1 /\
  (forall n, let x := civil n in
    civil (n + 1) = if d_day x <? month_length (d_year x) (d_month x) then mkDate (d_year x) (d_month x) (d_day x + 1)
                    else if d_month x =? 12 then mkDate (d_year x + 1) 1 1 else mkDate (d_year x) (d_month x + 1) 1) /\
  (forall n, day_number (civil n) = n) /\
  (forall x, exists_day x = true -> civil (day_number x) = x).
Proof.
  split; [reflexivity|]. split; [intro n; apply civil_next|]. split; [apply day_number_civil|apply civil_day_number].
Qed.

Lemma same_instant : forall t t', day_of t = day_of t' -> ns_of_day t = ns_of_day t' -> t = t'.
Proof. intros t t' A B. rewrite (at_day_split t), (at_day_split t'), A, B. reflexivity. Qed.
Lemma date_inj : forall t t', date_at t = date_at t' -> ns_of_day t = ns_of_day t' -> t = t'.
Proof. intros t t' A. apply same_instant. unfold date_at in A. rewrite <- (day_number_civil (day_of t)), A. apply day_number_civil. Qed.
Lemma as_i64_small : forall v, (v < 2 ^ 30)%N -> as_i64 v = Z.of_N v.
Proof. intros v H. unfold as_i64, as_signed. change (2 ^ 64) with 18446744073709551616. change (2 ^ (64 - 1)) with 9223372036854775808.
  change (2 ^ 30)%N with 1073741824%N in H. rewrite Z.mod_small by lia. destruct (Z.of_N v <? 9223372036854775808) eqn:Q; lia. Qed.
Lemma as_i32_small : forall v, (v < 2 ^ 30)%N -> as_i32 v = Z.of_N v.
Proof. intros v H. unfold as_i32, as_signed. change (2 ^ 32) with 4294967296. change (2 ^ (32 - 1)) with 2147483648.
  change (2 ^ 30)%N with 1073741824%N in H. rewrite Z.mod_small by lia. destruct (Z.of_N v <? 2147483648) eqn:Q; lia. Qed.

Section Eval.
Variable first last : Z.
Hypothesis sane : - 1000000 <= first /\ last <= 1000000.
Notation rep := (representable first last).

Lemma rep_at_date : forall x ns, exists_day x = true -> 0 <= ns < ns_per_day ->
  rep (at_day (day_number x) ns) = ((first <=? d_year x) && (d_year x <=? last)).
Proof. intros x ns Ex Hns. rewrite rep_at by exact Hns. rewrite civil_day_number by exact Ex. reflexivity. Qed.
(** [with_day] in a month of a day that exists. *)
Lemma with_day_spec : forall t d, rep t = true ->
  with_day first last t d =
    let x := date_at t in
    if (1 <=? d) && (d <=? month_length (d_year x) (d_month x)) then Some (at_day (day_number (mkDate (d_year x) (d_month x) d)) (ns_of_day t)) else None.
Proof.
  intros t d R. unfold with_day, with_date. cbv zeta. fold (date_at t). set (x := date_at t).
  pose proof (civil_facts (day_of t)) as F. fold (date_at t) in F. fold x in F.
  destruct ((1 <=? d) && (d <=? month_length (d_year x) (d_month x))) eqn:Q.
  - assert (exists_day (mkDate (d_year x) (d_month x) d) = true) as Ex by (unfold exists_day; cbn [d_year d_month d_day]; lia).
    rewrite Ex, rep_at_date by (try exact Ex; apply ns_range). cbn [d_year]. unfold representable in R. fold (date_at t) in R. fold x in R. cbv zeta in R. rewrite R. reflexivity.
  - assert (exists_day (mkDate (d_year x) (d_month x) d) = false) as Ex by (unfold exists_day; cbn [d_year d_month d_day]; lia). rewrite Ex. reflexivity.
Qed.

(** What is said of one step: the result is [Ok] of exactly the points the specification gives, within the years; no error. *)
Definition good (r : result) (R : Z -> Prop) : Prop :=
  (forall t', r = Ok t' <-> R t' /\ in_years first last t') /\ r <> Err tt.
Lemma good_landed : forall t n (R : Z -> Prop),
  R (at_day n (ns_of_day t)) -> (forall t', R t' -> t' = at_day n (ns_of_day t)) -> good (landed first last t n) R.
Proof.
  intros t n R H U. unfold landed. destruct (rep (at_day n (ns_of_day t))) eqn:Q; split; try discriminate; intro t'; split.
  - intro E. injection E as <-. split; [exact H|apply rep_iff, Q].
  - intros [E _]. rewrite (U t' E). reflexivity.
  - discriminate.
  - intros [E Y]. rewrite (U t' E) in Y. apply rep_iff in Y. congruence.
Qed.
Lemma good_ok : forall t (R : Z -> Prop), R t -> in_years first last t -> (forall t', R t' -> t' = t) -> good (Ok t) R.
Proof.
  intros t R H Y U. split; [|discriminate]. intro t'. split; [intro E; injection E as <-; auto|]. intros [E _]. rewrite (U t' E). reflexivity.
Qed.
Lemma good_shifted : forall t (R : Z -> Prop), R t -> (forall t', R t' -> t' = t) -> good (shifted first last t) R.
Proof.
  intros t R H U. unfold shifted. destruct (rep t) eqn:Q; split; try discriminate; intro t'; split.
  - intro E. injection E as <-. split; [exact H|apply rep_iff, Q].
  - intros [E _]. rewrite (U t' E). reflexivity.
  - discriminate.
  - intros [E Y]. rewrite (U t' E) in Y. apply rep_iff in Y. congruence.
Qed.
Lemma try_ok : forall v u, (v < 2 ^ 30)%N -> 0 <= u <= 604800000 -> try_duration (as_i64 v) u = Ok (Z.of_N v * u * 1000000).
Proof.
  intros v u Hv Hu. unfold try_duration. rewrite as_i64_small by exact Hv. change (2 ^ 30)%N with 1073741824%N in Hv.
  assert (0 <= Z.of_N v * u <= 1073741824 * 604800000) by nia.
  unfold i64_max. replace (Z.abs (Z.of_N v * u) <=? 2 ^ 63 - 1) with true; [reflexivity|]. change (2 ^ 63 - 1) with 9223372036854775807. lia.
Qed.

Lemma date_at_day : forall n t, date_at (at_day n (ns_of_day t)) = civil n.
Proof. intros. unfold date_at. rewrite (proj1 (at_day_of n _ (ns_range t))). reflexivity. Qed.
Lemma month_index_idx : forall t, month_index (date_at t) = idx (day_of t).
Proof. reflexivity. Qed.
Local Opaque civil day_number month_length.
(** The month an adjustment leads to, and the day in it. *)
Definition day_in (o : operation) (d l : Z) : Z := if d <=? l then d else match o with Plus => 1 | Minus => l end.
Lemma month_there : forall o v t n i, (v <> 0)%N -> idx (day_of t) + signed o v = i ->
  civil n = mkDate (i / 12) (i mod 12 + 1) (day_in o (d_day (date_at t)) (len_of i)) ->
  moved first last o OMonth v t (at_day n (ns_of_day t)).
Proof.
  intros o v t n i Nz Ei Cn. destruct (at_day_of n _ (ns_range t)) as [Dn Nn].
  apply mv_month; [exact Nz|exact Nn| |]; cbv zeta; rewrite date_at_day, Cn.
  - rewrite month_index_idx, Ei. unfold month_index. cbn [d_year d_month]. lia.
  - cbn [d_year d_month d_day]. reflexivity.
Qed.
Lemma month_only : forall o v t t' i, (v <> 0)%N -> idx (day_of t) + signed o v = i -> moved first last o OMonth v t t' ->
  same_clock t t' /\ date_at t' = mkDate (i / 12) (i mod 12 + 1) (day_in o (d_day (date_at t)) (len_of i)).
Proof.
  intros o v t t' i Nz Ei Mv. inversion Mv as [| | |? ? ? ? ? Sc Mi Dd| | | | | |]; subst; try contradiction. split; [exact Sc|].
  rewrite !month_index_idx in Mi. destruct (idx_civil (day_of t')) as [Ey Em]. rewrite Mi in Ey, Em. cbv zeta in Dd.
  change (civil (day_of t')) with (date_at t') in Ey, Em. revert Ey Em Dd. generalize (idx (day_of t) + signed o v) as i. generalize (date_at t') as x. intros [y m d] i. cbn [d_year d_month d_day]. intros -> -> ->. reflexivity.
Qed.
Lemma month_good : forall o v t i n0, (v <> 0)%N -> idx (day_of t) + signed o v = i -> idx n0 = i ->
  n0 = match o with Plus => first_of i | Minus => first_of (i + 1) - 1 end ->
  good (bind (landed first last t n0) (fun t' => Ok (or_else (with_day first last t' (d_day (date_at t))) t'))) (moved first last o OMonth v t).
Proof.
  intros o v t i n0 Nz Ei I0 E0. pose proof (len_bounds i) as LI. pose proof (first_next i) as FI. pose proof (civil_facts (day_of t)) as F. fold (date_at t) in F.
  destruct (idx_civil n0) as [Ey Em]. rewrite I0 in Ey, Em.
  set (n' := first_of i + (day_in o (d_day (date_at t)) (len_of i) - 1)).
  assert (1 <= day_in o (d_day (date_at t)) (len_of i) <= len_of i) as Bd by (unfold day_in; destruct (d_day (date_at t) <=? len_of i) eqn:Q; destruct o; lia).
  assert (civil n' = mkDate (i / 12) (i mod 12 + 1) (day_in o (d_day (date_at t)) (len_of i))) as Cn.
  { unfold n'. rewrite within_month by lia. f_equal. lia. }
  assert (date_at (at_day n' (ns_of_day t)) = mkDate (i / 12) (i mod 12 + 1) (day_in o (d_day (date_at t)) (len_of i))) as Dn by (rewrite date_at_day; exact Cn).
  pose proof (proj2 (at_day_of n' _ (ns_range t))) as Nn.
  unfold landed. destruct (rep (at_day n0 (ns_of_day t))) eqn:R1; cbn [bind].
  - replace (or_else (with_day first last (at_day n0 (ns_of_day t)) (d_day (date_at t))) (at_day n0 (ns_of_day t))) with (at_day n' (ns_of_day t)).
    2:{ rewrite with_day_spec by exact R1. cbv zeta. rewrite date_at_day, (proj2 (at_day_of n0 _ (ns_range t))), Ey, Em. fold (len_of i).
        replace (1 <=? d_day (date_at t)) with true by lia. cbn [andb]. unfold n', day_in.
        destruct (d_day (date_at t) <=? len_of i) eqn:Q; cbn [or_else].
        - f_equal. rewrite <- (day_number_civil (first_of i + (d_day (date_at t) - 1))). f_equal. rewrite within_month by lia. f_equal. lia.
        - f_equal. rewrite E0. destruct o; lia. }
    rewrite rep_at in R1 by apply ns_range. rewrite Ey in R1.
    apply good_ok; [apply month_there with (i := i); assumption| |].
    + unfold in_years. rewrite Dn. cbn [d_year]. lia.
    + intros t' Mv. destruct (month_only _ _ _ _ _ Nz Ei Mv) as [Sc Dt]. apply date_inj; [rewrite Dn; exact Dt|rewrite Nn; exact Sc].
  - split; [|discriminate]. intro t'. split; [discriminate|]. intros [Mv Yt]. exfalso. destruct (month_only _ _ _ _ _ Nz Ei Mv) as [_ Dt].
    rewrite rep_at in R1 by apply ns_range. rewrite Ey in R1. unfold in_years in Yt. rewrite Dt in Yt. cbn [d_year] in Yt. lia.
Qed.
Lemma month_moved : forall o v t, (v < 2 ^ 30)%N -> in_years first last t ->
  good (roll_month first last t (signed o v)) (moved first last o OMonth v t).
Proof.
  intros o v t Hv Y. pose proof (proj2 (rep_iff first last t) Y) as Rt. unfold roll_month.
  destruct (N.eq_dec v 0) as [-> | Nz].
  { replace (signed o 0) with 0 by (destruct o; reflexivity). cbn [Z.ltb Z.compare]. apply good_ok; [apply mv_no_month|exact Y|].
    intros t' M. inversion M; subst; [reflexivity|contradiction]. }
  pose proof (proj1 (idx_iff (day_of t) _) eq_refl) as R0. pose proof (first_next (idx (day_of t))) as FN. pose proof (len_bounds (idx (day_of t))) as LM.
  destruct o; cbn [signed].
  - replace (0 <? Z.of_N v) with true by lia. pose proof (first_mono (idx (day_of t)) (Z.of_N v) ltac:(lia)) as FM.
    rewrite (roll_months_up first last (Z.to_nat (32 * Z.of_N v + 32)) (Z.of_N v) t); [|lia|lia|exact Rt].
    apply month_good with (i := idx (day_of t) + Z.of_N v); [exact Nz|reflexivity|apply idx_first|reflexivity].
  - replace (0 <? - Z.of_N v) with false by lia. replace (- Z.of_N v <? 0) with true by lia. rewrite Z.opp_involutive.
    pose proof (first_mono (idx (day_of t) - Z.of_N v) (Z.of_N v) ltac:(lia)) as FM. replace (idx (day_of t) - Z.of_N v + Z.of_N v) with (idx (day_of t)) in FM by lia.
    pose proof (first_next (idx (day_of t) - Z.of_N v)) as FI. pose proof (len_bounds (idx (day_of t) - Z.of_N v)) as LI.
    rewrite (roll_months_down first last (Z.to_nat (32 * Z.of_N v + 32)) (Z.of_N v) t); [|lia|lia|exact Rt].
    apply month_good with (i := idx (day_of t) - Z.of_N v); [exact Nz|cbn [signed]; lia|apply idx_iff; lia|reflexivity].
Qed.

Lemma day_moved : forall o v u t (U : date_offset) k, (v < 2 ^ 30)%N -> 0 <= u <= 604800000 -> u * 1000000 = k ->
  (forall t', moved first last o U v t t' <-> t' = t + signed o v * k) ->
  good (bind (try_duration (as_i64 v) u) (fun d => shifted first last (match o with Plus => t + d | Minus => t - d end))) (moved first last o U v t).
Proof.
  intros o v u t U k Hv Hu <- Hm. rewrite try_ok by assumption. cbn [bind].
  replace (match o with Plus => t + Z.of_N v * u * 1000000 | Minus => t - Z.of_N v * u * 1000000 end) with (t + signed o v * (u * 1000000)) by (destruct o; cbn [signed]; lia).
  apply good_shifted; [apply Hm; reflexivity|]. intros t' M. apply Hm, M.
Qed.
Lemma year_moved : forall o v t, (v < 2 ^ 30)%N -> in_years first last t ->
  good (let y := d_year (civil (day_of t)) + signed o v in if in_i32 y then Ok (or_else (with_year first last t y) t) else Panic) (moved first last o OYear v t).
Proof.
  intros o v t Hv Y. change (2 ^ 30)%N with 1073741824%N in Hv. cbv zeta. fold (date_at t). pose proof Y as Y0. unfold in_years in Y.
  set (y := d_year (date_at t) + signed o v). assert (in_i32 y = true) as ->.
  { unfold in_i32. change (2 ^ 31) with 2147483648. assert (- 1073741824 < signed o v < 1073741824) by (destruct o; cbn [signed]; lia). unfold y. lia. }
  unfold with_year, with_date. cbv zeta. fold (date_at t). set (x := mkDate y (d_month (date_at t)) (d_day (date_at t))).
  destruct (exists_day x && rep (at_day (day_number x) (ns_of_day t))) eqn:Q.
  - apply andb_true_iff in Q. destruct Q as [Ex Rx]. rewrite rep_at_date in Rx by (try exact Ex; apply ns_range). cbn [or_else].
    destruct (at_day_of (day_number x) _ (ns_range t)) as [Dn Nn].
    assert (date_at (at_day (day_number x) (ns_of_day t)) = x) as Dx by (rewrite date_at_day; apply civil_day_number, Ex).
    apply good_ok.
    + apply mv_year; [exact Nn|cbv zeta; fold y; cbn [x d_year] in Rx; lia|exact Dx].
    + unfold in_years. rewrite Dx. lia.
    + intros t' Mv. inversion Mv as [| | | |? ? ? ? Sc Yr Dd|? ? ? Bad| | | |]; subst.
      * apply date_inj; [rewrite Dd, Dx; reflexivity|rewrite Nn; exact Sc].
      * cbv zeta in Bad. fold y in Bad. fold x in Bad. destruct Bad as [Bad|Bad]; [congruence|]. lia.
  - cbn [or_else]. apply andb_false_iff in Q. assert (exists_day x = false \/ ~ first <= d_year x <= last) as Bad.
    { destruct (exists_day x) eqn:Ex; [right|auto]. destruct Q as [Q|Q]; [discriminate|]. rewrite rep_at_date in Q by (try exact Ex; apply ns_range). lia. }
    apply good_ok; [apply mv_no_year; exact Bad|exact Y0|].
    intros t' Mv. inversion Mv as [| | | |? ? ? ? Sc Yr Dd| | | | |]; subst; [|reflexivity].
    exfalso. fold y in Dd. fold x in Dd. cbv zeta in Yr. fold y in Yr. change y with (d_year x) in Yr. destruct Bad as [Bad|Bad]; [|lia].
    pose proof (civil_exists (day_of t')) as Ex. fold (date_at t') in Ex. rewrite Dd in Ex. congruence.
Qed.
Lemma weekday_unique : forall a b n, weekday a = weekday b -> n < a <= n + 7 -> n < b <= n + 7 -> a = b.
Proof. intros a b n. unfold weekday. lia. Qed.
Lemma weekday_moved : forall o d v t, (d < 7)%N -> in_years first last t ->
  good (roll_to first last (match o with Plus => ns_per_day | Minus => - ns_per_day end) (is_weekday d) t) (moved first last o (OWeekday d) v t).
Proof.
  intros o d v t Hd Y. apply rep_iff in Y. destruct o.
  - destruct (next_weekday first last (Z.of_N d) t ltac:(lia) Y) as (n & Wn & Rn & E). unfold is_weekday. rewrite E.
    destruct (at_day_of n _ (ns_range t)) as [Dn Nn]. apply good_landed.
    + apply mv_next_weekday; [exact Nn|rewrite Dn; exact Wn|rewrite Dn; exact Rn].
    + intros t' Mv. inversion Mv as [| | | | | |? ? ? ? Sc W R| | |]; subst. apply same_instant; [|rewrite Nn; exact Sc]. rewrite Dn. apply (weekday_unique _ _ (day_of t)); [congruence|exact R|exact Rn].
  - destruct (last_weekday first last (Z.of_N d) t ltac:(lia) Y) as (n & Wn & Rn & E). unfold is_weekday. rewrite E.
    destruct (at_day_of n _ (ns_range t)) as [Dn Nn]. apply good_landed.
    + apply mv_last_weekday; [exact Nn|rewrite Dn; exact Wn|rewrite Dn; exact Rn].
    + intros t' Mv. inversion Mv as [| | | | | | |? ? ? ? Sc W R| |]; subst. apply same_instant; [|rewrite Nn; exact Sc]. rewrite Dn. apply (weekday_unique _ _ (day_of t - 8)); [congruence|lia|lia].
Qed.
Lemma first_of_month_idx : forall m n, first_of_month m n <-> n = first_of (idx n) /\ idx n mod 12 + 1 = m.
Proof.
  intros m n. unfold first_of_month. rewrite (proj2 (idx_civil n)). pose proof (day_in_month n) as [E B]. split; intros [A C].
  - split; [|exact A]. lia.
  - split; [exact C|]. rewrite A, civil_first. reflexivity.
Qed.
Lemma month_end_first : forall i, month_end (first_of i) = first_of (i + 1) - 1.
Proof. intro i. unfold month_end. rewrite civil_first. cbn [d_year d_month]. fold (len_of i). rewrite first_next. reflexivity. Qed.
Lemma month_name_moved : forall o m v t, (1 <= m <= 12)%N -> in_years first last t ->
  good (match o with
        | Plus => roll_to first last ns_per_day (is_month m) t
        | Minus => bind (roll_to first last (- ns_per_day) (is_month m) t) (fun t' => Ok (or_else (with_day first last t' 1) t))
        end) (moved first last o (OMonthName m) v t).
Proof.
  intros o m v t Hm Y. apply rep_iff in Y. destruct o.
  - destruct (next_month_name first last (Z.of_N m) t ltac:(lia) Y) as (n & Fn & Rn & Mn & E). unfold is_month, month. rewrite E.
    destruct (at_day_of n _ (ns_range t)) as [Dn Nn]. apply good_landed.
    + apply mv_next_month_name; [exact Nn|rewrite Dn; exact Fn|rewrite Dn; exact Rn|rewrite Dn; exact Mn].
    + intros t' Mv. inversion Mv as [| | | | | | | |? ? ? ? Sc F R U|]; subst. apply same_instant; [|rewrite Nn; exact Sc]. rewrite Dn.
      destruct (Z.lt_trichotomy (day_of t') n) as [L|[L|L]]; [|exact L|]; exfalso; [apply (Mn (day_of t')); [lia|exact F]|apply (U n); [lia|exact Fn]].
  - destruct (last_month_name first last (Z.of_N m) t ltac:(lia) Y) as (i & Ei & Li & Mi & E). unfold is_month, month. rewrite E.
    assert (forall t', moved first last Minus (OMonthName m) v t t' <-> t' = at_day (first_of i) (ns_of_day t)) as Sp.
    { intro t'. destruct (at_day_of (first_of i) _ (ns_range t)) as [Dn Nn]. split.
      - intro Mv. inversion Mv as [| | | | | | | | |? ? ? ? Sc F R U]; subst. apply same_instant; [|rewrite Nn; exact Sc]. rewrite Dn.
        pose proof F as F0. apply first_of_month_idx in F0. destruct F0 as [F1 F2]. rewrite F1 in R. rewrite month_end_first in R.
        pose proof (Mi (idx (day_of t')) F2 ltac:(lia)) as Le.
        assert (first_of_month (Z.of_N m) (first_of i)) as Fi by (apply first_of_month_idx; rewrite idx_first; auto).
        pose proof (U (first_of i) Fi ltac:(rewrite month_end_first; lia)) as Le2.
        pose proof (first_mono (idx (day_of t')) (i - idx (day_of t')) ltac:(lia)) as Mo. replace (idx (day_of t') + (i - idx (day_of t'))) with i in Mo by lia. lia.
      - intros ->. apply mv_last_month_name; [exact Nn|rewrite Dn; apply first_of_month_idx; rewrite idx_first; auto|rewrite Dn, month_end_first; lia|].
        rewrite Dn. intros n F En. apply first_of_month_idx in F. destruct F as [F1 F2]. rewrite F1 in En |- *. rewrite month_end_first in En.
        pose proof (Mi (idx n) F2 ltac:(lia)) as Le. pose proof (first_mono (idx n) (i - idx n) ltac:(lia)) as Mo. replace (idx n + (i - idx n)) with i in Mo by lia. lia. }
    pose proof (first_next i) as FN. pose proof (len_bounds i) as LB.
    assert (idx (first_of (i + 1) - 1) = i) as Ii by (apply idx_iff; lia).
    unfold landed. destruct (rep (at_day (first_of (i + 1) - 1) (ns_of_day t))) eqn:R1; cbn [bind].
    + rewrite with_day_spec by exact R1. cbv zeta. rewrite date_at_day, (proj2 (at_day_of (first_of (i + 1) - 1) _ (ns_range t))). destruct (idx_civil (first_of (i + 1) - 1)) as [Ey Em]. rewrite Ii in Ey, Em. rewrite Ey, Em. fold (len_of i).
      replace (1 <=? len_of i) with true by lia. cbn [Z.leb Z.compare Pos.compare Pos.compare_cont andb or_else].
      change (day_number (mkDate (i / 12) (i mod 12 + 1) 1)) with (first_of i).
      apply good_ok; [apply Sp; reflexivity| |intros t' Mv; apply Sp, Mv].
      apply rep_iff. rewrite rep_at in R1 |- * by apply ns_range. rewrite civil_first. cbn [d_year]. rewrite Ey in R1. exact R1.
    + split; [|discriminate]. intro t'. split; [discriminate|]. intros [Mv Yt]. exfalso. apply Sp in Mv. subst t'. unfold in_years in Yt. rewrite date_at_day, civil_first in Yt. cbn [d_year] in Yt.
      rewrite rep_at in R1 by apply ns_range. rewrite (proj1 (idx_civil _)), Ii in R1. lia.
Qed.

(** An adjustment as the parser gives it, of an amount below 2^30. *)
Definition proper (a : adjustment date_offset) : Prop :=
  (a_value a < 2 ^ 30)%N /\ match a_type a with OWeekday d => (d < 7)%N | OMonthName m => (1 <= m <= 12)%N | _ => True end.
Lemma adjusted_good : forall a t, proper a -> in_years first last t ->
  good (date_adjusted first last a t) (moved first last (a_op a) (a_type a) (a_value a) t).
Proof.
  intros [u v o] t [Hv Hu] Y. cbn [a_type a_value a_op] in *. unfold date_adjusted. cbn [a_op].
  replace (match o with Plus => forward_date_by first last (mkAdj u v o) t | Minus => reverse_date_by first last (mkAdj u v o) t end)
    with (match u with
          | ODay => bind (try_duration (as_i64 v) day_ms) (fun d => shifted first last (match o with Plus => t + d | Minus => t - d end))
          | OWeek => bind (try_duration (as_i64 v) (7 * day_ms)) (fun d => shifted first last (match o with Plus => t + d | Minus => t - d end))
          | OMonth => roll_month first last t (signed o v)
          | OYear => let y := d_year (civil (day_of t)) + signed o v in if in_i32 y then Ok (or_else (with_year first last t y) t) else Panic
          | OWeekday d => roll_to first last (match o with Plus => ns_per_day | Minus => - ns_per_day end) (is_weekday d) t
          | OMonthName m => match o with
             | Plus => roll_to first last ns_per_day (is_month m) t
             | Minus => bind (roll_to first last (- ns_per_day) (is_month m) t) (fun t' => Ok (or_else (with_day first last t' 1) t))
             end
          end).
  2:{ unfold forward_date_by, reverse_date_by. cbn [a_type a_value]. rewrite as_i64_small, as_i32_small by exact Hv.
      destruct u, o; cbn [signed]; try reflexivity. change (- 2 ^ 63) with (- 9223372036854775808). replace (Z.of_N v =? - 9223372036854775808) with false by lia. reflexivity. }
  destruct u.
  - apply day_moved with (k := ns_per_day); [exact Hv|unfold day_ms; lia|reflexivity|]. intro t'. split; [intro M; inversion M; subst; reflexivity|intros ->; constructor].
  - apply day_moved with (k := 7 * ns_per_day); [exact Hv|unfold day_ms; lia|reflexivity|]. intro t'. split; [intro M; inversion M; subst; reflexivity|intros ->; constructor].
  - apply month_moved; assumption.
  - apply year_moved; assumption.
  - apply weekday_moved; assumption.
  - apply month_name_moved; assumption.
Qed.
Lemma base_good : forall b t, in_years first last t -> good (base_date first last b t) (based b t).
Proof.
  intros b t Y. destruct b; cbn [base_date].
  - apply good_ok; [constructor|exact Y|intros t' M; inversion M; reflexivity].
  - apply good_ok; [constructor|exact Y|intros t' M; inversion M; reflexivity].
  - apply good_shifted; [constructor|intros t' M; inversion M; reflexivity].
  - apply good_shifted; [constructor|intros t' M; inversion M; reflexivity].
Qed.
Lemma chain_good : forall A (f : adjustment A -> Z -> result) (R : operation -> A -> N -> Z -> Z -> Prop) l,
  (forall a t, In a l -> in_years first last t -> good (f a t) (R (a_op a) (a_type a) (a_value a) t)) ->
  forall t, in_years first last t -> good (apply_all f l t) (chain first last R l t).
Proof.
  intros A f R. induction l as [|a l IH]; intros H t Y; cbn [apply_all].
  - apply good_ok; [constructor|exact Y|intros t' M; inversion M; reflexivity].
  - destruct (H a t (or_introl eq_refl) Y) as [G NE]. specialize (IH (fun a t i => H a t (or_intror i))).
    destruct (f a t) as [t1|[]|] eqn:E; [|contradiction|]; cbn [bind].
    + destruct (proj1 (G t1) eq_refl) as [R1 Y1]. destruct (IH t1 Y1) as [G2 NE2]. split; [|exact NE2]. intro t'. split.
      * intro E2. apply G2 in E2. destruct E2. split; [econstructor; eauto|assumption].
      * intros [C Y2]. inversion C as [|? ? ? t1' ? R1' Y1' C']; subst. pose proof (proj2 (G t1') (conj R1' Y1')) as E1. injection E1 as <-. apply G2. auto.
    + split; [|discriminate]. intro t'. split; [discriminate|]. intros [C _]. inversion C as [|? ? ? t1' ? R1' Y1' C']; subst. pose proof (proj2 (G t1') (conj R1' Y1')). discriminate.
Qed.
Lemma chain_years : forall A (R : operation -> A -> N -> Z -> Z -> Prop) l t t', chain first last R l t t' -> in_years first last t -> in_years first last t'.
Proof. induction 1; auto. Qed.

(** The evaluation of a date expression gives the point in time it denotes, and nothing else; where there is none within
    the years, it panics, but it is never an error. *)
Theorem C93_date_evaluation : forall e t t', Forall proper (snd e) -> in_years first last t ->
  (eval_date first last e t = Ok t' <-> denotes_date first last e t t').
Proof.
  intros [b l] t t' P Y. unfold eval_date, denotes_date. cbn [fst snd] in *. rewrite Forall_forall in P.
  destruct (base_good b t Y) as [G NE].
  assert (forall t, in_years first last t -> good (apply_all (date_adjusted first last) l t) (chain first last (moved first last) l t)) as C.
  { apply chain_good. intros a t0 i Y0. apply adjusted_good; [apply P, i|exact Y0]. }
  split.
  - destruct (base_date first last b t) as [t0|[]|] eqn:E; try discriminate; cbn [bind]. intro E2. destruct (proj1 (G t0) eq_refl) as [B Y0].
    exists t0. split; [exact B|]. split; [exact Y0|]. apply (C t0 Y0), E2.
  - intros (t0 & B & Y0 & Ch). rewrite (proj2 (G t0) (conj B Y0)). cbn [bind]. apply (proj1 (C t0 Y0)). split; [exact Ch|]. apply (chain_years _ _ _ _ _ Ch Y0).
Qed.
Theorem C93_date_never_an_error : forall e t, Forall proper (snd e) -> in_years first last t -> eval_date first last e t <> Err tt.
Proof.
  intros [b l] t P Y. unfold eval_date. cbn [fst snd] in *. rewrite Forall_forall in P. destruct (base_good b t Y) as [G NE].
  destruct (base_date first last b t) as [t0|[]|] eqn:E; cbn [bind]; [|contradiction|discriminate].
  apply (chain_good _ (date_adjusted first last) (moved first last)); [|apply (proj1 (G t0) eq_refl)]. intros a t1 i Y1. apply adjusted_good; [apply P, i|exact Y1].
Qed.
End Eval.
