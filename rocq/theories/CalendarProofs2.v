(** The calendar counts the days: each has the date after that of the day before. *)
From Coq Require Import List ZArith Lia Bool.
From Verif Require Import Calendar CalendarProofs.
Import ListNotations.
Open Scope Z_scope.
Ltac Zify.zify_post_hook ::= Z.div_mod_to_equations.

Lemma of_doe_back : forall y m d, 0 <= y < 400 -> 0 <= m < 12 -> 1 <= d <= len_mp y m ->
  of_doe (doe_of y m d) = (y, m, d) /\ 0 <= doe_of y m d < 146097.
Proof.
  intros y m d Hy Hm Hd. apply doe_back. split; [exact Hy|]. split; [exact Hm|exact Hd].
Qed.
Lemma of_doe_spec : forall e, 0 <= e < 146097 -> exists y m d, of_doe e = (y, m, d) /\
  0 <= y < 400 /\ 0 <= m < 12 /\ 1 <= d <= len_mp y m /\ doe_of y m d = e /\
  (e = 146096 -> next_mp (y, m, d) = (400, 0, 1)) /\ (e < 146096 -> of_doe (e + 1) = next_mp (y, m, d)).
Proof.
  intros e He. pose proof (era_checked e He) as A. unfold check in A.
  destruct (of_doe e) as [[y m] d]. exists y, m, d. split; [reflexivity|].
  destruct (next_mp (y, m, d)) as [[y2 m2] d2].
  destruct (if e =? 146096 then (400, 0, 1) else of_doe (e + 1)) as [[y1 m1] d1] eqn:E.
  repeat (apply andb_prop in A; destruct A as [A ?]).
  assert (y1 = y2 /\ m1 = m2 /\ d1 = d2) as (-> & -> & ->) by lia.
  repeat split; try lia.
  - intros ->. cbn in E. congruence.
  - intro L. replace (e =? 146096) with false in E by lia. exact E.
Qed.

(** * Dates *)
Definition next_day (x : date) : date :=
  if d_day x <? month_length (d_year x) (d_month x) then mkDate (d_year x) (d_month x) (d_day x + 1)
  else if d_month x =? 12 then mkDate (d_year x + 1) 1 1
  else mkDate (d_year x) (d_month x + 1) 1.

Lemma leap_era : forall y k, leap (y + k * 400) = leap y.
Proof.
  intros y k. unfold leap.
  replace ((y + k * 400) mod 4) with (y mod 4) by lia. replace ((y + k * 400) mod 100) with (y mod 100) by lia.
  replace ((y + k * 400) mod 400) with (y mod 400) by lia. reflexivity.
Qed.
Definition month_of_mp (mp : Z) : Z := if mp <? 10 then mp + 3 else mp - 9.
Definition date_of (era : Z) (x : Z * Z * Z) : date :=
  let '(yoe, mp, d) := x in
  mkDate (yoe + era * 400 + (if month_of_mp mp <=? 2 then 1 else 0)) (month_of_mp mp) d.
Lemma civil_date_of : forall n, civil n = date_of ((n + 719468) / 146097) (of_doe ((n + 719468) mod 146097)).
Proof. intro n. unfold civil. destruct (of_doe ((n + 719468) mod 146097)) as [[y m] d]. reflexivity. Qed.
Lemma length_mp : forall era y m, 0 <= m < 12 ->
  month_length (y + era * 400 + (if month_of_mp m <=? 2 then 1 else 0)) (month_of_mp m) = len_mp y m.
Proof.
  intros era y m Hm. unfold month_of_mp.
  assert (m = 0 \/ m = 1 \/ m = 2 \/ m = 3 \/ m = 4 \/ m = 5 \/ m = 6 \/ m = 7 \/ m = 8 \/ m = 9 \/ m = 10 \/ m = 11) as C by lia.
  repeat (destruct C as [-> | C]; [reflexivity|]). subst m. unfold month_length, len_mp. cbn.
  replace (y + era * 400 + 1) with (y + 1 + era * 400) by lia. rewrite leap_era. reflexivity.
Qed.
Lemma next_date_of : forall era y m d, 0 <= m < 12 -> next_day (date_of era (y, m, d)) = date_of era (next_mp (y, m, d)).
Proof.
  intros era y m d Hm. unfold next_day, next_mp. cbn [date_of d_year d_month d_day]. rewrite length_mp by exact Hm.
  destruct (d <? len_mp y m); [reflexivity|].
  assert (m = 0 \/ m = 1 \/ m = 2 \/ m = 3 \/ m = 4 \/ m = 5 \/ m = 6 \/ m = 7 \/ m = 8 \/ m = 9 \/ m = 10 \/ m = 11) as C by lia.
  repeat (destruct C as [-> | C]; [cbn; f_equal; lia|]). subst m. cbn. f_equal; lia.
Qed.
Theorem civil_next : forall n, civil (n + 1) = next_day (civil n).
Proof.
  intro n. rewrite !civil_date_of. set (z := n + 719468). replace (n + 1 + 719468) with (z + 1) by lia. clearbody z. clear n.
  destruct (of_doe_spec (z mod 146097) ltac:(lia)) as (y & m & d & E & Hy & Hm & Hd & _ & N1 & N2). rewrite E.
  rewrite next_date_of by exact Hm. destruct (Z.eq_dec (z mod 146097) 146096) as [L|L].
  - rewrite (N1 L). replace ((z + 1) mod 146097) with 0 by lia. replace ((z + 1) / 146097) with (z / 146097 + 1) by lia.
    change (of_doe 0) with (0, 0, 1). unfold date_of. f_equal. lia.
  - rewrite <- (N2 ltac:(lia)). replace ((z + 1) mod 146097) with (z mod 146097 + 1) by lia.
    replace ((z + 1) / 146097) with (z / 146097) by lia. reflexivity.
Qed.
Theorem civil_epoch : civil 0 = mkDate 1970 1 1.
Proof. reflexivity. Qed.
Theorem civil_exists : forall n, exists_day (civil n) = true.
Proof.
  intro n. rewrite civil_date_of. set (z := n + 719468).
  destruct (of_doe_spec (z mod 146097) ltac:(lia)) as (y & m & d & E & Hy & Hm & Hd & _). rewrite E.
  unfold exists_day. cbn [date_of d_year d_month d_day]. rewrite length_mp by exact Hm. unfold month_of_mp.
  destruct (m <? 10) eqn:Q; lia.
Qed.
Lemma day_number_date_of : forall era y m d, 0 <= y < 400 -> 0 <= m < 12 ->
  day_number (date_of era (y, m, d)) = era * 146097 + doe_of y m d - 719468.
Proof.
  intros era y m d Hy Hm. unfold day_number, doe_of. cbn [date_of d_year d_month d_day].
  assert ((if month_of_mp m <=? 2 then month_of_mp m + 9 else month_of_mp m - 3) = m) as -> by (unfold month_of_mp; destruct (m <? 10) eqn:Q; destruct (_ <=? 2) eqn:R; lia).
  assert ((if month_of_mp m <=? 2 then y + era * 400 + (if month_of_mp m <=? 2 then 1 else 0) - 1 else y + era * 400 + (if month_of_mp m <=? 2 then 1 else 0)) = y + era * 400) as -> by (destruct (month_of_mp m <=? 2); lia).
  replace ((y + era * 400) mod 400) with y by lia. replace ((y + era * 400) / 400) with era by lia. reflexivity.
Qed.
Theorem day_number_civil : forall n, day_number (civil n) = n.
Proof.
  intro n. rewrite civil_date_of. set (z := n + 719468).
  destruct (of_doe_spec (z mod 146097) ltac:(lia)) as (y & m & d & E & Hy & Hm & Hd & Q & _). rewrite E.
  rewrite day_number_date_of by assumption. rewrite Q. lia.
Qed.
Theorem civil_day_number : forall x, exists_day x = true -> civil (day_number x) = x.
Proof.
  intros [y m d] Ex. unfold exists_day in Ex. cbn [d_year d_month d_day] in Ex.
  repeat (apply andb_prop in Ex; destruct Ex as [Ex ?]).
  set (y' := if m <=? 2 then y - 1 else y). set (mp := if m <=? 2 then m + 9 else m - 3).
  assert (mkDate y m d = date_of (y' / 400) (y' mod 400, mp, d)) as E.
  { unfold date_of, y', mp, month_of_mp. destruct (m <=? 2) eqn:Q.
    - replace (m + 9 <? 10) with false by lia. replace (m + 9 - 9 <=? 2) with true by lia. f_equal; lia.
    - replace (m - 3 <? 10) with true by lia. replace (m - 3 + 3 <=? 2) with false by lia. f_equal; lia. }
  assert (0 <= mp < 12) as Hm by (unfold mp; destruct (m <=? 2) eqn:Q; lia).
  assert (d <= len_mp (y' mod 400) mp) as Hd.
  { rewrite <- (length_mp (y' / 400)) by exact Hm. unfold date_of in E. assert (E1 := f_equal d_year E). assert (E2 := f_equal d_month E). cbn [d_year d_month] in E1, E2. rewrite <- E1, <- E2. lia. }
  rewrite E. destruct (of_doe_back (y' mod 400) mp d ltac:(lia) Hm ltac:(lia)) as [B1 B2].
  rewrite day_number_date_of by lia. rewrite civil_date_of.
  replace (y' / 400 * 146097 + doe_of (y' mod 400) mp d - 719468 + 719468) with (y' / 400 * 146097 + doe_of (y' mod 400) mp d) by lia.
  replace ((y' / 400 * 146097 + doe_of (y' mod 400) mp d) / 146097) with (y' / 400) by lia.
  replace ((y' / 400 * 146097 + doe_of (y' mod 400) mp d) mod 146097) with (doe_of (y' mod 400) mp d) by lia.
  rewrite B1. reflexivity.
Qed.
