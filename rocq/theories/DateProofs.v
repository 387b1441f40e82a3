(** Proofs about evaluating date expressions. *)
From Coq Require Import Ascii String List Arith NArith ZArith Lia Bool.
From Coq Require Import ZifyBool ZifyN ZifyNat.
From Verif Require Import Base Json Text Calendar CalendarProofs CalendarProofs2 DateExpr DateEval SpecDate.
Import ListNotations.
Open Scope Z_scope.
Ltac Zify.zify_post_hook ::= Z.div_mod_to_equations.

(** * Days and months *)
Lemma civil_facts : forall n, 1 <= d_month (civil n) <= 12 /\ 1 <= d_day (civil n) <= month_length (d_year (civil n)) (d_month (civil n)).
Proof. intro n. pose proof (civil_exists n) as E. unfold exists_day in E. repeat (apply andb_prop in E; destruct E as [E ?]). lia. Qed.
Lemma month_length_bounds : forall y m, 28 <= month_length y m <= 31.
Proof. intros. unfold month_length. repeat match goal with |- context [if ?b then _ else _] => destruct b end; lia. Qed.
(** Months counted through: the year and month of an index. *)
Definition idx (n : Z) : Z := month_index (civil n).
Definition first_of (i : Z) : Z := day_number (mkDate (i / 12) (i mod 12 + 1) 1).
Definition len_of (i : Z) : Z := month_length (i / 12) (i mod 12 + 1).
Lemma civil_first : forall i, civil (first_of i) = mkDate (i / 12) (i mod 12 + 1) 1.
Proof.
  intro i. apply civil_day_number. unfold exists_day. cbn [d_year d_month d_day].
  pose proof (month_length_bounds (i / 12) (i mod 12 + 1)). lia.
Qed.
Lemma idx_civil : forall n, d_year (civil n) = idx n / 12 /\ d_month (civil n) = idx n mod 12 + 1.
Proof. intro n. unfold idx, month_index. pose proof (civil_facts n). lia. Qed.
Lemma within_month : forall i k, 0 <= k < len_of i -> civil (first_of i + k) = mkDate (i / 12) (i mod 12 + 1) (k + 1).
Proof.
  intros i k Hk. assert (exists j, k = Z.of_nat j) as [j ->] by (exists (Z.to_nat k); lia). revert Hk.
  induction j as [|j IH]; intro Hk; [rewrite Z.add_0_r; apply civil_first|].
  replace (first_of i + Z.of_nat (S j)) with (first_of i + Z.of_nat j + 1) by lia. rewrite civil_next, IH by lia.
  unfold next_day. cbn [d_year d_month d_day]. fold (len_of i). replace (Z.of_nat j + 1 <? len_of i) with true by lia. f_equal. lia.
Qed.
Lemma first_next : forall i, first_of (i + 1) = first_of i + len_of i.
Proof.
  intro i. assert (civil (first_of i + len_of i) = civil (first_of (i + 1))) as E.
  { pose proof (month_length_bounds (i / 12) (i mod 12 + 1)) as B. fold (len_of i) in B.
    replace (first_of i + len_of i) with (first_of i + (len_of i - 1) + 1) by lia.
    rewrite civil_next, within_month by lia. rewrite civil_first. unfold next_day. cbn [d_year d_month d_day]. fold (len_of i).
    replace (len_of i - 1 + 1 <? len_of i) with false by lia. destruct (i mod 12 + 1 =? 12) eqn:Q; f_equal; lia. }
  rewrite <- (day_number_civil (first_of (i + 1))), <- E, day_number_civil. reflexivity.
Qed.
Lemma len_bounds : forall i, 28 <= len_of i <= 31.
Proof. intro. apply month_length_bounds. Qed.
Lemma first_mono : forall i k, 0 <= k -> 28 * k <= first_of (i + k) - first_of i <= 31 * k.
Proof.
  intros i k Hk. assert (exists j, k = Z.of_nat j) as [j ->] by (exists (Z.to_nat k); lia). clear Hk.
  induction j as [|j IH]; [rewrite Z.add_0_r; lia|]. replace (i + Z.of_nat (S j)) with (i + Z.of_nat j + 1) by lia.
  rewrite first_next. pose proof (len_bounds (i + Z.of_nat j)). lia.
Qed.
(** A day lies in the month of its index. *)
Lemma day_in_month : forall n, n = first_of (idx n) + (d_day (civil n) - 1) /\ 1 <= d_day (civil n) <= len_of (idx n).
Proof.
  intro n. destruct (idx_civil n) as [Ey Em]. pose proof (civil_facts n) as F.
  assert (1 <= d_day (civil n) <= len_of (idx n)) as B by (unfold len_of; rewrite <- Ey, <- Em; lia).
  split; [|exact B]. rewrite <- (day_number_civil n) at 1. rewrite <- (day_number_civil (first_of (idx n) + (d_day (civil n) - 1))).
  f_equal. rewrite within_month by lia. rewrite <- Ey, <- Em. destruct (civil n). cbn. f_equal. lia.
Qed.
Lemma idx_iff : forall n i, idx n = i <-> first_of i <= n < first_of (i + 1).
Proof.
  intros n i. pose proof (day_in_month n) as [E B]. pose proof (first_next (idx n)) as N.
  split; [intros <-; lia|]. intro R. destruct (Z.lt_trichotomy (idx n) i) as [L|[L|L]]; [|exact L|].
  - pose proof (first_mono (idx n + 1) (i - (idx n + 1)) ltac:(lia)) as M. replace (idx n + 1 + (i - (idx n + 1))) with i in M by lia. lia.
  - pose proof (first_mono (i + 1) (idx n - (i + 1)) ltac:(lia)) as M. replace (i + 1 + (idx n - (i + 1))) with (idx n) in M by lia. lia.
Qed.
Lemma idx_mono : forall n n', n <= n' -> idx n <= idx n'.
Proof.
  intros n n' L. destruct (Z.le_gt_cases (idx n) (idx n')) as [|G]; [assumption|].
  pose proof (proj1 (idx_iff n _) eq_refl) as A. pose proof (proj1 (idx_iff n' _) eq_refl) as B.
  pose proof (first_mono (idx n' + 1) (idx n - (idx n' + 1)) ltac:(lia)) as M. replace (idx n' + 1 + (idx n - (idx n' + 1))) with (idx n) in M by lia. lia.
Qed.
Lemma year_mono : forall n n', n <= n' -> d_year (civil n) <= d_year (civil n').
Proof. intros n n' L. pose proof (idx_mono n n' L). destruct (idx_civil n) as [-> _]. destruct (idx_civil n') as [-> _]. lia. Qed.
Lemma idx_next : forall n, idx (n + 1) = idx n \/ idx (n + 1) = idx n + 1 /\ n + 1 = first_of (idx n + 1).
Proof.
  intro n. pose proof (proj1 (idx_iff n _) eq_refl) as A. pose proof (first_next (idx n + 1)) as N. pose proof (len_bounds (idx n + 1)).
  destruct (Z.eq_dec (n + 1) (first_of (idx n + 1))) as [E|E].
  - right. split; [|exact E]. apply idx_iff. lia.
  - left. apply idx_iff. lia.
Qed.
Lemma idx_prev : forall n, idx (n - 1) = idx n \/ idx (n - 1) = idx n - 1 /\ n = first_of (idx n).
Proof.
  intro n. destruct (idx_next (n - 1)) as [E|[E F]]; replace (n - 1 + 1) with n in * by lia; [left; lia|right].
  rewrite E. replace (idx (n - 1) + 1 - 1) with (idx (n - 1)) by lia. auto.
Qed.

(** * Points in time *)
Lemma day_shift : forall t k, day_of (t + k * ns_per_day) = day_of t + k /\ ns_of_day (t + k * ns_per_day) = ns_of_day t.
Proof. intros. unfold day_of, ns_of_day. rewrite Z.div_add, Z_mod_plus_full by discriminate. auto. Qed.
Lemma at_day_of : forall n ns, 0 <= ns < ns_per_day -> day_of (at_day n ns) = n /\ ns_of_day (at_day n ns) = ns.
Proof. intros n ns H. unfold day_of, ns_of_day, at_day, ns_per_day in *. lia. Qed.
Lemma ns_range : forall t, 0 <= ns_of_day t < ns_per_day.
Proof. intro. unfold ns_of_day. apply Z.mod_pos_bound. reflexivity. Qed.
Lemma at_day_split : forall t, t = at_day (day_of t) (ns_of_day t).
Proof. intro t. unfold at_day, day_of, ns_of_day. pose proof (Z.div_mod t ns_per_day ltac:(discriminate)). lia. Qed.
Lemma same_point : forall t n, t + (n - day_of t) * ns_per_day = at_day n (ns_of_day t).
Proof. intros. rewrite (at_day_split t) at 1. unfold at_day. lia. Qed.

Section Range.
Variable first last : Z.
Notation rep := (representable first last).
Lemma rep_iff : forall t, rep t = true <-> in_years first last t.
Proof. intro t. unfold representable, in_years, date_at. lia. Qed.
Lemma rep_between : forall a b c, day_of a <= day_of b <= day_of c -> rep a = true -> rep c = true -> rep b = true.
Proof.
  intros a b c [L1 L2] A C. unfold representable in *. pose proof (year_mono _ _ L1). pose proof (year_mono _ _ L2). lia.
Qed.
Lemma rep_at : forall n ns, 0 <= ns < ns_per_day -> rep (at_day n ns) = ((first <=? d_year (civil n)) && (d_year (civil n) <=? last)).
Proof. intros. unfold representable. rewrite (proj1 (at_day_of n ns H)). reflexivity. Qed.

(** ** The loops *)
Lemma roll_while_spec : forall s p fuel k t, (s = 1 \/ s = -1) -> (k < fuel)%nat ->
  (forall i, (i < k)%nat -> p (t + Z.of_nat i * s * ns_per_day) = true) ->
  p (t + Z.of_nat k * s * ns_per_day) = false -> rep t = true ->
  roll_while first last fuel (s * ns_per_day) p t =
    if rep (t + Z.of_nat k * s * ns_per_day) then Ok (t + Z.of_nat k * s * ns_per_day) else Panic.
Proof.
  intros s p. induction fuel as [|f IH]; intros k t Hs Hk Tr Fa Rt; [lia|]. cbn [roll_while]. destruct k as [|k].
  - change (Z.of_nat 0 * s * ns_per_day) with 0 in *. rewrite Z.add_0_r in *. rewrite Fa, Rt. reflexivity.
  - pose proof (Tr O ltac:(lia)) as T0. change (Z.of_nat 0 * s * ns_per_day) with 0 in T0. rewrite Z.add_0_r in T0. rewrite T0.
    set (t1 := t + s * ns_per_day). assert (forall i, t1 + Z.of_nat i * s * ns_per_day = t + Z.of_nat (S i) * s * ns_per_day) as Sh by (intro; unfold t1; lia).
    unfold shifted. destruct (rep t1) eqn:R1; cbn [bind].
    + rewrite (IH k t1); [rewrite Sh; reflexivity|exact Hs|lia|intros i Hi; rewrite Sh; apply Tr; lia|rewrite Sh; exact Fa|exact R1].
    + destruct (rep (t + Z.of_nat (S k) * s * ns_per_day)) eqn:R2; [|reflexivity]. exfalso.
      pose proof (proj1 (day_shift t s)) as D1. fold t1 in D1. pose proof (proj1 (day_shift t (Z.of_nat (S k) * s))) as D2.
      enough (rep t1 = true) by congruence. destruct Hs as [-> | ->].
      * apply (rep_between t _ (t + Z.of_nat (S k) * 1 * ns_per_day)); [lia|exact Rt|exact R2].
      * apply (rep_between (t + Z.of_nat (S k) * -1 * ns_per_day) _ t); [lia|exact R2|exact Rt].
Qed.

(** The result at a day, with the time of day kept. *)
Definition landed (t n : Z) : result := if rep (at_day n (ns_of_day t)) then Ok (at_day n (ns_of_day t)) else Panic.
(** Rolling to the nearest day [n] such that [q] holds, after the run of days for which it holds from [t] on. *)
Lemma roll_to_spec : forall s q t a b, (s = 1 \/ s = -1) -> (a < 400)%nat -> (b < 400)%nat -> rep t = true ->
  (forall i, (i < a)%nat -> q (day_of t + Z.of_nat i * s) = true) -> q (day_of t + Z.of_nat a * s) = false ->
  (forall i, (i < b)%nat -> q (day_of t + Z.of_nat (a + i) * s) = false) -> q (day_of t + Z.of_nat (a + b) * s) = true ->
  roll_to first last (s * ns_per_day) (fun t => q (day_of t)) t = landed t (day_of t + Z.of_nat (a + b) * s).
Proof.
  intros s q t a b Hs Ha Hb Rt Q1 Q2 Q3 Q4. unfold roll_to.
  assert (forall i, day_of (t + Z.of_nat i * s * ns_per_day) = day_of t + Z.of_nat i * s) as D by (intro; apply day_shift).
  rewrite (roll_while_spec s (fun t => q (day_of t)) 400 a t Hs Ha); [|intros i Hi; rewrite D; apply Q1, Hi|rewrite D; exact Q2|exact Rt].
  set (t1 := t + Z.of_nat a * s * ns_per_day) in *.
  assert (forall i, day_of (t1 + Z.of_nat i * s * ns_per_day) = day_of t + Z.of_nat (a + i) * s) as D1.
  { intro i. unfold t1. replace (t + Z.of_nat a * s * ns_per_day + Z.of_nat i * s * ns_per_day) with (t + Z.of_nat (a + i) * s * ns_per_day) by lia. apply D. }
  assert (t1 + Z.of_nat b * s * ns_per_day = at_day (day_of t + Z.of_nat (a + b) * s) (ns_of_day t)) as E.
  { rewrite <- same_point. unfold t1. lia. }
  destruct (rep t1) eqn:R1; cbn [bind].
  - rewrite (roll_while_spec s (fun t => negb (q (day_of t))) 400 b t1 Hs Hb); [|intros i Hi; rewrite D1, Q3; [reflexivity|exact Hi]|rewrite D1, Q4; reflexivity|exact R1].
    rewrite E. reflexivity.
  - unfold landed. destruct (rep (at_day (day_of t + Z.of_nat (a + b) * s) (ns_of_day t))) eqn:R2; [|reflexivity].
    exfalso. enough (rep t1 = true) by congruence. pose proof (D a) as Da. fold t1 in Da.
    pose proof (proj1 (at_day_of (day_of t + Z.of_nat (a + b) * s) (ns_of_day t) (ns_range t))) as De.
    destruct Hs as [-> | ->].
    + eapply rep_between; [|exact Rt|exact R2]. lia.
    + eapply rep_between; [|exact R2|exact Rt]. lia.
Qed.

(** ** Weekdays *)
Lemma weekday_shift : forall n k, weekday (n + k) = (weekday n + k) mod 7.
Proof. intros. unfold weekday. lia. Qed.
Lemma next_weekday : forall d t, 0 <= d < 7 -> rep t = true ->
  exists n, weekday n = d /\ day_of t < n <= day_of t + 7 /\
    roll_to first last ns_per_day (fun t => weekday (day_of t) =? d) t = landed t n.
Proof.
  intros d t Hd Rt. set (wd := weekday (day_of t)). assert (0 <= wd < 7) as Hw by (unfold wd, weekday; lia).
  assert (forall k, weekday (day_of t + k) = (wd + k) mod 7) as W by (intro; apply weekday_shift).
  set (k := if wd =? d then 7 else (d - wd) mod 7). assert (1 <= k <= 7 /\ (wd + k) mod 7 = d) as [Hk Ek] by (unfold k; destruct (wd =? d) eqn:Q; lia).
  exists (day_of t + k). split; [rewrite W; exact Ek|]. split; [lia|].
  set (a := if wd =? d then 1%nat else 0%nat). assert (exists b, k = Z.of_nat (a + b)) as [b Eb] by (exists (Z.to_nat k - a)%nat; unfold a; destruct (wd =? d); lia).
  change ns_per_day with (1 * ns_per_day). rewrite (roll_to_spec 1 (fun n => weekday n =? d) t a b).
  - f_equal. lia.
  - auto.
  - unfold a; destruct (wd =? d); lia.
  - lia.
  - exact Rt.
  - intros i Hi. rewrite W. unfold a in Hi. destruct (wd =? d) eqn:Q; lia.
  - rewrite W. unfold a. destruct (wd =? d) eqn:Q; lia.
  - intros i Hi. rewrite W. unfold a, k in *. destruct (wd =? d) eqn:Q; lia.
  - rewrite W. replace (wd + Z.of_nat (a + b) * 1) with (wd + k) by lia. lia.
Qed.
Lemma last_weekday : forall d t, 0 <= d < 7 -> rep t = true ->
  exists n, weekday n = d /\ day_of t - 7 <= n < day_of t /\
    roll_to first last (- ns_per_day) (fun t => weekday (day_of t) =? d) t = landed t n.
Proof.
  intros d t Hd Rt. set (wd := weekday (day_of t)). assert (0 <= wd < 7) as Hw by (unfold wd, weekday; lia).
  assert (forall k, weekday (day_of t + k) = (wd + k) mod 7) as W by (intro; apply weekday_shift).
  set (k := if wd =? d then 7 else (wd - d) mod 7). assert (1 <= k <= 7 /\ (wd - k) mod 7 = d) as [Hk Ek] by (unfold k; destruct (wd =? d) eqn:Q; lia).
  exists (day_of t + - k). split; [rewrite W; replace (wd + - k) with (wd - k) by lia; exact Ek|]. split; [lia|].
  set (a := if wd =? d then 1%nat else 0%nat). assert (exists b, k = Z.of_nat (a + b)) as [b Eb] by (exists (Z.to_nat k - a)%nat; unfold a; destruct (wd =? d); lia).
  change (- ns_per_day) with (-1 * ns_per_day). rewrite (roll_to_spec (-1) (fun n => weekday n =? d) t a b).
  - f_equal. lia.
  - auto.
  - unfold a; destruct (wd =? d); lia.
  - lia.
  - exact Rt.
  - intros i Hi. rewrite W. unfold a in Hi. destruct (wd =? d) eqn:Q; lia.
  - rewrite W. unfold a. destruct (wd =? d) eqn:Q; lia.
  - intros i Hi. rewrite W. unfold a, k in *. destruct (wd =? d) eqn:Q; lia.
  - rewrite W. replace (wd + Z.of_nat (a + b) * -1) with (wd - k) by lia. lia.
Qed.

(** ** Month names *)
Lemma month_idx : forall n m, (d_month (civil n) =? m) = (idx n mod 12 + 1 =? m).
Proof. intros. rewrite (proj2 (idx_civil n)). reflexivity. Qed.
Lemma first_of_month_iff : forall m n, first_of_month m n <-> n = first_of (idx n) /\ idx n mod 12 + 1 = m.
Proof.
  intros m n. unfold first_of_month. rewrite (proj2 (idx_civil n)). pose proof (day_in_month n) as [E B]. lia.
Qed.
Lemma idx_first : forall i, idx (first_of i) = i.
Proof. intro i. apply idx_iff. pose proof (first_next i). pose proof (len_bounds i). lia. Qed.
Lemma next_month_name : forall m t, 1 <= m <= 12 -> rep t = true ->
  exists n, first_of_month m n /\ day_of t < n /\ (forall x, day_of t < x < n -> ~ first_of_month m x) /\
    roll_to first last ns_per_day (fun t => d_month (civil (day_of t)) =? m) t = landed t n.
Proof.
  intros m t Hm Rt. set (n0 := day_of t). set (M := idx n0). set (k := let k := (m - 1 - M) mod 12 in if k =? 0 then 12 else k).
  assert (1 <= k <= 12 /\ (M + k) mod 12 + 1 = m /\ (forall j, 1 <= j < k -> (M + j) mod 12 + 1 <> m) /\ (k = 12 <-> M mod 12 + 1 = m)) as (Hk & Ek & Lk & K12).
  { unfold k. cbv zeta. destruct ((m - 1 - M) mod 12 =? 0) eqn:Q; repeat split; try lia. }
  set (n := first_of (M + k)). assert (idx n = M + k) as In by apply idx_first.
  pose proof (proj1 (idx_iff n0 M) eq_refl) as R0.
  pose proof (first_mono (M + 1) (k - 1) ltac:(lia)) as FM. replace (M + 1 + (k - 1)) with (M + k) in FM by lia. fold n in FM.
  pose proof (first_next M) as FN. pose proof (len_bounds M) as LB.
  exists n. split; [apply first_of_month_iff; rewrite In; split; [reflexivity|lia]|]. split; [lia|]. split.
  - intros x Hx F. apply first_of_month_iff in F. destruct F as [F1 F2].
    assert (M <= idx x) by (apply idx_mono; lia). assert (idx x < M + k).
    { destruct (Z.lt_ge_cases (idx x) (M + k)) as [|G]; [assumption|]. pose proof (proj1 (idx_iff x _) eq_refl) as Rx.
      pose proof (first_mono (M + k) (idx x - (M + k)) ltac:(lia)) as F3. replace (M + k + (idx x - (M + k))) with (idx x) in F3 by lia. fold n in F3. lia. }
    assert (idx x <> M). { intro E. rewrite E in F1. lia. }
    apply (Lk (idx x - M)); [lia|]. replace (M + (idx x - M)) with (idx x) by lia. exact F2.
  - set (a := Z.to_nat (if k =? 12 then first_of (M + 1) - n0 else 0)).
    assert (Z.of_nat a = if k =? 12 then first_of (M + 1) - n0 else 0) as Ea by (unfold a; destruct (k =? 12); lia).
    assert (exists b, n - n0 = Z.of_nat (a + b)) as [b Eb] by (exists (Z.to_nat (n - n0) - a)%nat; destruct (k =? 12); lia).
    change ns_per_day with (1 * ns_per_day). rewrite (roll_to_spec 1 (fun n => d_month (civil n) =? m) t a b); fold n0.
    + f_equal. lia.
    + auto.
    + destruct (k =? 12); lia.
    + lia.
    + exact Rt.
    + intros i Hi. rewrite month_idx. destruct (k =? 12) eqn:Q; [|lia].
      assert (idx (n0 + Z.of_nat i * 1) = M) as -> by (apply idx_iff; lia). lia.
    + rewrite month_idx. destruct (k =? 12) eqn:Q.
      * assert (n0 + Z.of_nat a * 1 = first_of (M + 1)) as -> by lia. rewrite idx_first. lia.
      * assert (n0 + Z.of_nat a * 1 = n0) as -> by lia. fold M. lia.
    + intros i Hi. rewrite month_idx. set (x := n0 + Z.of_nat (a + i) * 1). assert (n0 <= x < n) as Hx by lia.
      assert (M <= idx x) as A1 by (apply idx_mono; lia).
      assert (idx x < M + k) as A2.
      { destruct (Z.lt_ge_cases (idx x) (M + k)) as [|G]; [assumption|]. pose proof (proj1 (idx_iff x _) eq_refl) as Rx.
        pose proof (first_mono (M + k) (idx x - (M + k)) ltac:(lia)) as F3. replace (M + k + (idx x - (M + k))) with (idx x) in F3 by lia. fold n in F3. lia. }
      destruct (Z.eq_dec (idx x) M) as [E|E].
      * rewrite E. destruct (k =? 12) eqn:Q; [|lia]. exfalso. pose proof (proj1 (idx_iff x M) E). unfold x in *. lia.
      * pose proof (Lk (idx x - M) ltac:(lia)) as L. replace (M + (idx x - M)) with (idx x) in L by lia. lia.
    + rewrite month_idx. replace (n0 + Z.of_nat (a + b) * 1) with n by lia. rewrite In. lia.
Qed.
Lemma last_month_name : forall m t, 1 <= m <= 12 -> rep t = true ->
  exists i, i mod 12 + 1 = m /\ first_of (i + 1) <= day_of t /\ (forall j, j mod 12 + 1 = m -> first_of (j + 1) <= day_of t -> j <= i) /\
    roll_to first last (- ns_per_day) (fun t => d_month (civil (day_of t)) =? m) t = landed t (first_of (i + 1) - 1).
Proof.
  intros m t Hm Rt. set (n0 := day_of t). set (M := idx n0). set (k := let k := (M - (m - 1)) mod 12 in if k =? 0 then 12 else k).
  assert (1 <= k <= 12 /\ (M - k) mod 12 + 1 = m /\ (forall j, 1 <= j < k -> (M - j) mod 12 + 1 <> m) /\ (k = 12 <-> M mod 12 + 1 = m)) as (Hk & Ek & Lk & K12).
  { unfold k. cbv zeta. destruct ((M - (m - 1)) mod 12 =? 0) eqn:Q; repeat split; try lia. }
  set (n := first_of (M - k + 1) - 1).
  pose proof (proj1 (idx_iff n0 M) eq_refl) as R0.
  pose proof (first_mono (M - k + 1) (k - 1) ltac:(lia)) as FM. replace (M - k + 1 + (k - 1)) with M in FM by lia.
  pose proof (first_next M) as FN. pose proof (len_bounds M) as LB.
  pose proof (first_next (M - k)) as FN'. pose proof (len_bounds (M - k)) as LB'.
  assert (idx n = M - k) as In by (apply idx_iff; lia).
  exists (M - k). fold n. split; [exact Ek|]. split; [lia|]. split.
  - intros j Ej Lj. destruct (Z.le_gt_cases j (M - k)) as [|G]; [assumption|]. exfalso.
    assert (j < M). { destruct (Z.lt_ge_cases j M) as [|G2]; [assumption|]. pose proof (first_mono (M + 1) (j - M) ltac:(lia)) as F3. replace (M + 1 + (j - M)) with (j + 1) in F3 by lia. lia. }
    apply (Lk (M - j)); [lia|]. replace (M - (M - j)) with j by lia. exact Ej.
  - set (a := Z.to_nat (if k =? 12 then n0 - first_of M + 1 else 0)).
    assert (Z.of_nat a = if k =? 12 then n0 - first_of M + 1 else 0) as Ea by (unfold a; destruct (k =? 12); lia).
    assert (exists b, n0 - n = Z.of_nat (a + b)) as [b Eb] by (exists (Z.to_nat (n0 - n) - a)%nat; destruct (k =? 12); lia).
    change (- ns_per_day) with (-1 * ns_per_day). rewrite (roll_to_spec (-1) (fun n => d_month (civil n) =? m) t a b); fold n0.
    + f_equal. lia.
    + auto.
    + destruct (k =? 12); lia.
    + lia.
    + exact Rt.
    + intros i Hi. rewrite month_idx. destruct (k =? 12) eqn:Q; [|lia].
      assert (idx (n0 + Z.of_nat i * -1) = M) as -> by (apply idx_iff; lia). lia.
    + rewrite month_idx. destruct (k =? 12) eqn:Q.
      * pose proof (first_next (M - 1)) as F4. pose proof (len_bounds (M - 1)) as L4. replace (M - 1 + 1) with M in F4 by lia.
        assert (idx (n0 + Z.of_nat a * -1) = M - 1) as ->. { apply idx_iff. replace (M - 1 + 1) with M by lia. lia. } lia.
      * assert (n0 + Z.of_nat a * -1 = n0) as -> by lia. fold M. lia.
    + intros i Hi. rewrite month_idx. set (x := n0 + Z.of_nat (a + i) * -1). assert (n < x <= n0) as Hx by lia.
      assert (idx x <= M) as A1 by (apply idx_mono; lia).
      assert (M - k < idx x) as A2.
      { destruct (Z.lt_ge_cases (M - k) (idx x)) as [|G]; [assumption|]. pose proof (proj1 (idx_iff x _) eq_refl) as Rx.
        pose proof (first_mono (idx x + 1) (M - k - idx x) ltac:(lia)) as F3. replace (idx x + 1 + (M - k - idx x)) with (M - k + 1) in F3 by lia. lia. }
      destruct (Z.eq_dec (idx x) M) as [E|E].
      * rewrite E. destruct (k =? 12) eqn:Q; [|lia]. exfalso. pose proof (proj1 (idx_iff x M) E). unfold x in *. lia.
      * pose proof (Lk (M - idx x) ltac:(lia)) as L. replace (M - (M - idx x)) with (idx x) in L by lia. lia.
    + rewrite month_idx. replace (n0 + Z.of_nat (a + b) * -1) with n by lia. rewrite In. lia.
Qed.

(** ** Months *)
Lemma month_is : forall t, month t = idx (day_of t) mod 12 + 1.
Proof. intro t. unfold month. apply idx_civil. Qed.
(** Rolling forward through [c] ends of months leads to the first day of the month, back to the last one. *)
Lemma roll_months_up : forall fuel c t, 0 < c -> first_of (idx (day_of t) + c) - day_of t < Z.of_nat fuel -> rep t = true ->
  roll_months first last fuel ns_per_day (month t) c t = landed t (first_of (idx (day_of t) + c)).
Proof.
  induction fuel as [|f IH]; intros c t Hc Hf Rt.
  { pose proof (proj1 (idx_iff (day_of t) _) eq_refl). pose proof (first_mono (idx (day_of t) + 1) (c - 1) ltac:(lia)) as F. replace (idx (day_of t) + 1 + (c - 1)) with (idx (day_of t) + c) in F by lia. lia. }
  cbn [roll_months]. replace (0 <? c) with true by lia. set (M := idx (day_of t)) in *. set (t1 := t + ns_per_day).
  destruct (day_shift t 1) as [D1 N1]. replace (t + 1 * ns_per_day) with t1 in D1, N1 by (unfold t1; lia).
  pose proof (proj1 (idx_iff (day_of t) M) eq_refl) as R0.
  pose proof (first_mono (M + 1) (c - 1) ltac:(lia)) as F. replace (M + 1 + (c - 1)) with (M + c) in F by lia.
  unfold shifted. destruct (rep t1) eqn:R1; cbn [bind].
  - destruct (idx_next (day_of t)) as [E|[E E']]; fold M in E; rewrite <- D1 in E.
    + assert (month t1 = month t) as Em by (rewrite !month_is, E; reflexivity). rewrite Em, Z.eqb_refl. rewrite <- Em.
      rewrite (IH c t1 Hc); [|rewrite E, D1; lia|exact R1]. rewrite E. unfold landed. rewrite N1. reflexivity.
    + fold M in E'. assert (month t1 =? month t = false) as -> by (rewrite !month_is, E; fold M; lia).
      destruct (Z.eq_dec c 1) as [-> | Nc].
      * destruct f as [|f]; [lia|]. cbn [roll_months]. change (0 <? 1 - 1) with false. cbv iota.
        unfold landed. rewrite <- E'. rewrite <- N1 at 1. rewrite <- D1 at 1. rewrite <- at_day_split, R1. rewrite <- N1, <- D1, <- at_day_split. reflexivity.
      * rewrite (IH (c - 1) t1); [|lia|rewrite E, D1; replace (M + 1 + (c - 1)) with (M + c) by lia; lia|exact R1].
        rewrite E. replace (M + 1 + (c - 1)) with (M + c) by lia. unfold landed. rewrite N1. reflexivity.
  - unfold landed. destruct (rep (at_day (first_of (M + c)) (ns_of_day t))) eqn:R2; [|reflexivity]. exfalso.
    enough (rep t1 = true) by congruence. eapply rep_between; [|exact Rt|exact R2]. rewrite (proj1 (at_day_of _ _ (ns_range t))). lia.
Qed.
Lemma roll_months_down : forall fuel c t, 0 < c -> day_of t - first_of (idx (day_of t) - c + 1) + 1 < Z.of_nat fuel -> rep t = true ->
  roll_months first last fuel (- ns_per_day) (month t) c t = landed t (first_of (idx (day_of t) - c + 1) - 1).
Proof.
  induction fuel as [|f IH]; intros c t Hc Hf Rt.
  { pose proof (proj1 (idx_iff (day_of t) _) eq_refl). pose proof (first_mono (idx (day_of t) - c + 1) (c - 1) ltac:(lia)) as F. replace (idx (day_of t) - c + 1 + (c - 1)) with (idx (day_of t)) in F by lia. lia. }
  cbn [roll_months]. replace (0 <? c) with true by lia. set (M := idx (day_of t)) in *. set (t1 := t + - ns_per_day).
  destruct (day_shift t (-1)) as [D1 N1]. replace (t + -1 * ns_per_day) with t1 in D1, N1 by (unfold t1; lia).
  pose proof (proj1 (idx_iff (day_of t) M) eq_refl) as R0.
  pose proof (first_mono (M - c + 1) (c - 1) ltac:(lia)) as F. replace (M - c + 1 + (c - 1)) with M in F by lia.
  unfold shifted. destruct (rep t1) eqn:R1; cbn [bind].
  - destruct (idx_prev (day_of t)) as [E|[E E']]; fold M in E; replace (day_of t - 1) with (day_of t1) in E by lia.
    + assert (month t1 = month t) as Em by (rewrite !month_is, E; reflexivity). rewrite Em, Z.eqb_refl. rewrite <- Em.
      rewrite (IH c t1 Hc); [|rewrite E, D1; lia|exact R1]. rewrite E. unfold landed. rewrite N1. reflexivity.
    + fold M in E'. assert (month t1 =? month t = false) as -> by (rewrite !month_is, E; fold M; lia).
      destruct (Z.eq_dec c 1) as [-> | Nc].
      * destruct f as [|f]; [lia|]. cbn [roll_months]. change (0 <? 1 - 1) with false. cbv iota.
        assert (first_of (M - 1 + 1) - 1 = day_of t1) as E2 by (replace (M - 1 + 1) with M by lia; lia).
        unfold landed. rewrite E2. rewrite <- N1, <- at_day_split, R1. reflexivity.
      * rewrite (IH (c - 1) t1); [|lia|rewrite E, D1; replace (M - 1 - (c - 1) + 1) with (M - c + 1) by lia; lia|exact R1].
        rewrite E. replace (M - 1 - (c - 1) + 1) with (M - c + 1) by lia. unfold landed. rewrite N1. reflexivity.
  - unfold landed. destruct (rep (at_day (first_of (M - c + 1) - 1) (ns_of_day t))) eqn:R2; [|reflexivity]. exfalso.
    enough (rep t1 = true) by congruence. eapply rep_between; [|exact R2|exact Rt]. rewrite (proj1 (at_day_of _ _ (ns_range t))). lia.
Qed.
End Range.
