(** Date expressions of moderate amounts do not panic. *)
From Coq Require Import Ascii String List Arith NArith ZArith Lia Bool.
From Coq Require Import ZifyBool ZifyN ZifyNat.
From Verif Require Import Base Json Text Calendar CalendarProofs CalendarProofs2 DateExpr DateEval SpecDate DateProofs PropDate.
Import ListNotations.
Open Scope Z_scope.
Ltac Zify.zify_post_hook ::= Z.div_mod_to_equations.

Lemma idx_shift : forall n d k, 0 <= k -> 0 <= d <= 28 * k -> idx n <= idx (n + d) <= idx n + k + 1.
Proof.
  intros n d k Hk Hd. split; [apply idx_mono; lia|].
  pose proof (proj1 (idx_iff n (idx n)) eq_refl) as R. pose proof (proj1 (idx_iff (n + d) (idx (n + d))) eq_refl) as R'.
  destruct (Z_le_gt_dec (idx (n + d)) (idx n + k + 1)) as [L|G]; [exact L|exfalso].
  pose proof (first_mono (idx n + 1) (k + 1) ltac:(lia)) as M1.
  pose proof (first_mono (idx n + 1 + (k + 1)) (idx (n + d) - (idx n + 1 + (k + 1))) ltac:(lia)) as M2.
  replace (idx n + 1 + (k + 1) + (idx (n + d) - (idx n + 1 + (k + 1)))) with (idx (n + d)) in M2 by lia. lia.
Qed.
Lemma year_idx : forall n, d_year (civil n) = idx n / 12.
Proof. intro n. apply idx_civil. Qed.

Local Opaque civil day_number month_length.
Section Eval.
Variable first last : Z.
Hypothesis sane : - 1000000 <= first /\ last <= 1000000.
Definition year_at (t : Z) : Z := d_year (date_at t).
Lemma near : forall t n k, 0 <= k -> - (k + 1) <= idx n - idx (day_of t) <= k + 1 -> - (k + 1) <= year_at (at_day n (ns_of_day t)) - year_at t <= k + 1.
Proof. intros t n k Hk H. unfold year_at. rewrite date_at_day. unfold date_at. rewrite !year_idx. lia. Qed.
Lemma near_days : forall t d k, 0 <= k -> Z.abs d <= 28 * k -> - (k + 1) <= year_at (t + d * ns_per_day) - year_at t <= k + 1.
Proof.
  intros t d k Hk Hd. unfold year_at, date_at. rewrite (proj1 (day_shift t d)). rewrite !year_idx.
  destruct (Z_le_gt_dec 0 d) as [L|G].
  - pose proof (idx_shift (day_of t) d k Hk ltac:(lia)). lia.
  - pose proof (idx_shift (day_of t + d) (- d) k Hk ltac:(lia)) as I. replace (day_of t + d + - d) with (day_of t) in I by lia. lia.
Qed.
(** Every adjustment leads somewhere, not farther away than the amount and one in years. *)
Lemma moved_total : forall a t, proper a -> in_years first last t ->
  exists t', moved first last (a_op a) (a_type a) (a_value a) t t' /\
    - (Z.of_N (a_value a) + 1) <= year_at t' - year_at t <= Z.of_N (a_value a) + 1.
Proof.
  intros [u v o] t [Hv Hu] Y. cbn [a_type a_value a_op] in *. destruct u.
  - exists (t + signed o v * ns_per_day). split; [constructor|]. apply near_days; [lia|]. destruct o; cbn [signed]; lia.
  - exists (t + signed o v * (7 * ns_per_day)). split; [constructor|]. replace (signed o v * (7 * ns_per_day)) with (signed o v * 7 * ns_per_day) by lia.
    apply near_days; [lia|]. destruct o; cbn [signed]; lia.
  - destruct (N.eq_dec v 0) as [-> | Nz]; [exists t; split; [constructor|lia]|].
    set (i := idx (day_of t) + signed o v). pose proof (len_bounds i) as LI. pose proof (civil_facts (day_of t)) as F. fold (date_at t) in F. pose proof (first_next i) as FN.
    set (k := if d_day (date_at t) <=? len_of i then d_day (date_at t) - 1 else match o with Plus => 0 | Minus => len_of i - 1 end).
    assert (0 <= k < len_of i) as Hk by (unfold k; destruct (d_day (date_at t) <=? len_of i) eqn:Q; destruct o; lia).
    assert (idx (first_of i + k) = i) as Ii by (apply idx_iff; lia).
    exists (at_day (first_of i + k) (ns_of_day t)). split; [|apply near; [lia|]; rewrite Ii; unfold i; destruct o; cbn [signed]; lia].
    destruct (at_day_of (first_of i + k) _ (ns_range t)) as [Dn Nn].
    apply mv_month; [exact Nz|exact Nn| |]; cbv zeta; rewrite date_at_day.
    + fold (idx (first_of i + k)). rewrite Ii. reflexivity.
    + rewrite within_month by exact Hk. cbn [d_year d_month d_day]. fold (len_of i). unfold k. destruct (d_day (date_at t) <=? len_of i); destruct o; lia.
  - set (x := mkDate (d_year (date_at t) + signed o v) (d_month (date_at t)) (d_day (date_at t))).
    destruct (exists_day x && ((first <=? d_year x) && (d_year x <=? last))) eqn:Q.
    + apply andb_true_iff in Q. destruct Q as [Ex Rx]. exists (at_day (day_number x) (ns_of_day t)).
      destruct (at_day_of (day_number x) _ (ns_range t)) as [Dn Nn].
      assert (date_at (at_day (day_number x) (ns_of_day t)) = x) as Dx by (rewrite date_at_day; apply civil_day_number, Ex).
      split; [apply mv_year; [exact Nn|cbv zeta; change (d_year (date_at t) + signed o v) with (d_year x); lia|exact Dx]|].
      unfold year_at. rewrite Dx. cbn [x d_year]. destruct o; cbn [signed]; lia.
    + exists t. split; [apply mv_no_year|lia]. fold x. cbv zeta. destruct (exists_day x) eqn:Ex; [right; cbn [andb] in Q; lia|left; reflexivity].
  - pose proof (proj2 (rep_iff first last t) Y) as R. destruct o.
    + destruct (next_weekday first last (Z.of_N d) t ltac:(lia) R) as (n & Wn & Rn & _). exists (at_day n (ns_of_day t)).
      destruct (at_day_of n _ (ns_range t)) as [Dn Nn]. split; [apply mv_next_weekday; [exact Nn|rewrite Dn; exact Wn|rewrite Dn; exact Rn]|].
      pose proof (idx_shift (day_of t) (n - day_of t) 1 ltac:(lia) ltac:(lia)) as I. replace (day_of t + (n - day_of t)) with n in I by lia.
      unfold year_at. rewrite date_at_day. unfold date_at. rewrite !year_idx. lia.
    + destruct (last_weekday first last (Z.of_N d) t ltac:(lia) R) as (n & Wn & Rn & _). exists (at_day n (ns_of_day t)).
      destruct (at_day_of n _ (ns_range t)) as [Dn Nn]. split; [apply mv_last_weekday; [exact Nn|rewrite Dn; exact Wn|rewrite Dn; exact Rn]|].
      pose proof (idx_shift n (day_of t - n) 1 ltac:(lia) ltac:(lia)) as I. replace (n + (day_of t - n)) with (day_of t) in I by lia.
      unfold year_at. rewrite date_at_day. unfold date_at. rewrite !year_idx. lia.
  - pose proof (proj2 (rep_iff first last t) Y) as R. destruct o.
    + destruct (next_month_name first last (Z.of_N m) t ltac:(lia) R) as (n & Fn & Rn & Mn & _). exists (at_day n (ns_of_day t)).
      destruct (at_day_of n _ (ns_range t)) as [Dn Nn]. split; [apply mv_next_month_name; [exact Nn|rewrite Dn; exact Fn|rewrite Dn; exact Rn|rewrite Dn; exact Mn]|].
      (* twelve months on there is one of that name *)
      unfold year_at. rewrite date_at_day. unfold date_at. rewrite !year_idx.
      pose proof (proj1 (first_of_month_idx _ _) Fn) as [Fi Fm].
      set (M := idx (day_of t)) in *. set (j := M + 1 + ((Z.of_N m - 1 - (M + 1)) mod 12)).
      assert (j mod 12 + 1 = Z.of_N m) as Ej by (unfold j; lia).
      pose proof (proj1 (idx_iff (day_of t) M) eq_refl) as RM. pose proof (idx_mono (day_of t) n ltac:(lia)) as IM. fold M in IM.
      pose proof (first_mono (M + 1) (j - (M + 1)) ltac:(unfold j; lia)) as FM. replace (M + 1 + (j - (M + 1))) with j in FM by lia.
      assert (n <= first_of j) as Le.
      { destruct (Z_le_gt_dec n (first_of j)) as [L|G]; [exact L|exfalso]. apply (Mn (first_of j)); [unfold j in *; lia|]. apply first_of_month_idx. rewrite idx_first. auto. }
      pose proof (idx_mono n (first_of j) Le) as IJ. rewrite idx_first in IJ. unfold j in IJ. lia.
    + destruct (last_month_name first last (Z.of_N m) t ltac:(lia) R) as (i & Ei & Li & Mi & _).
      exists (at_day (first_of i) (ns_of_day t)). destruct (at_day_of (first_of i) _ (ns_range t)) as [Dn Nn]. split.
      * apply mv_last_month_name; [exact Nn|rewrite Dn; apply first_of_month_idx; rewrite idx_first; auto|rewrite Dn, month_end_first; lia|].
        rewrite Dn. intros n F En. apply first_of_month_idx in F. destruct F as [F1 F2]. rewrite F1 in En |- *. rewrite month_end_first in En.
        pose proof (Mi (idx n) F2 ltac:(lia)) as Le. pose proof (first_mono (idx n) (i - idx n) ltac:(lia)) as Mo. replace (idx n + (i - idx n)) with i in Mo by lia. lia.
      * unfold year_at. rewrite date_at_day. unfold date_at. rewrite !year_idx, idx_first.
        set (M := idx (day_of t)) in *. pose proof (proj1 (idx_iff (day_of t) M) eq_refl) as RM.
        set (j := M - 1 - ((M - 1 - (Z.of_N m - 1)) mod 12)). assert (j mod 12 + 1 = Z.of_N m) as Ej by (unfold j; lia).
        pose proof (first_mono (j + 1) (M - (j + 1)) ltac:(unfold j; lia)) as FM. replace (j + 1 + (M - (j + 1))) with M in FM by lia.
        pose proof (Mi j Ej ltac:(unfold j in *; lia)) as Ji. pose proof (idx_mono (first_of i) (day_of t)) as IM. rewrite idx_first in IM. fold M in IM.
        pose proof (first_next i). pose proof (len_bounds i). specialize (IM ltac:(lia)). unfold j in Ji. lia.
Qed.
Definition reach (l : list (adjustment date_offset)) : Z := fold_right (fun a r => Z.of_N (a_value a) + 1 + r) 0 l.
Lemma reach_nonneg : forall l, 0 <= reach l.
Proof. induction l as [|a l IH]; cbn [reach fold_right]; [lia|]. fold (reach l). lia. Qed.
Lemma chain_total : forall l t, Forall proper l -> first <= year_at t - reach l -> year_at t + reach l <= last ->
  exists t', chain first last (moved first last) l t t'.
Proof.
  induction l as [|a l IH]; intros t P L U; [exists t; constructor|]. inversion P as [|? ? Pa Pl]; subst. cbn [reach fold_right] in L, U. fold (reach l) in L, U. pose proof (reach_nonneg l).
  destruct (moved_total a t Pa) as (t1 & M & B); [unfold in_years; fold (year_at t); lia|].
  destruct (IH t1 Pl) as (t2 & C); [lia|lia|]. exists t2. econstructor; [exact M|unfold in_years; fold (year_at t1); lia|exact C].
Qed.
(** An expression whose amounts, and one for each of them and the base, do not lead out of the years is evaluated. *)
Theorem C93_no_panic : forall e t, Forall proper (snd e) ->
  first <= d_year (date_at t) - (reach (snd e) + 1) -> d_year (date_at t) + (reach (snd e) + 1) <= last ->
  exists t', eval_date first last e t = Ok t'.
Proof.
  intros [b l] t P L U. cbn [snd] in *. fold (year_at t) in L, U. pose proof (reach_nonneg l).
  assert (in_years first last t) as Y by (unfold in_years; fold (year_at t); lia).
  assert (exists t0, based b t t0 /\ - 1 <= year_at t0 - year_at t <= 1) as (t0 & B & N).
  { assert (forall d, -1 <= d <= 1 -> - 1 <= year_at (t + d * ns_per_day) - year_at t <= 1) as ND.
    { intros d Hd. unfold year_at, date_at. rewrite (proj1 (day_shift t d)), !year_idx. destruct (Z_le_gt_dec 0 d).
      - pose proof (idx_shift (day_of t) d 1 ltac:(lia) ltac:(lia)). lia.
      - pose proof (idx_shift (day_of t + d) (- d) 1 ltac:(lia) ltac:(lia)) as I. replace (day_of t + d + - d) with (day_of t) in I by lia. lia. }
    destruct b; [exists t|exists t|exists (t - ns_per_day)|exists (t + ns_per_day)]; (split; [constructor|]); try lia.
    - specialize (ND (-1) ltac:(lia)). replace (t + -1 * ns_per_day) with (t - ns_per_day) in ND by lia. exact ND.
    - specialize (ND 1 ltac:(lia)). replace (t + 1 * ns_per_day) with (t + ns_per_day) in ND by lia. exact ND. }
  destruct (chain_total l t0 P) as (t' & C); [lia|lia|]. exists t'. apply C93_date_evaluation; [exact sane|exact P|exact Y|].
  exists t0. split; [exact B|]. split; [unfold in_years; fold (year_at t0); lia|exact C].
Qed.
End Eval.
