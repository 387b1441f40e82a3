(** The days of an era of the calendar (a step of CalendarProofs2.v). *)
From Coq Require Import List ZArith Lia Bool.
From Coq Require Import ZifyBool.
From Verif Require Import Calendar.
Import ListNotations.
Open Scope Z_scope.
Ltac Zify.zify_post_hook ::= Z.div_mod_to_equations.

Definition doe_of (yoe mp d : Z) : Z := yoe * 365 + yoe / 4 - yoe / 100 + ((153 * mp + 2) / 5 + d - 1).
(** Month length by the month from March and the year of the era. *)
Definition len_mp (yoe mp : Z) : Z :=
  if mp =? 11 then if leap (yoe + 1) then 29 else 28
  else if (mp =? 1) || (mp =? 3) || (mp =? 6) || (mp =? 8) then 30 else 31.
Definition next_mp (x : Z * Z * Z) : Z * Z * Z :=
  let '(y, m, d) := x in
  if d <? len_mp y m then (y, m, d + 1) else if m =? 11 then (y + 1, 0, 1) else (y, m + 1, 1).
Definition valid (y m d : Z) : Prop := 0 <= y < 400 /\ 0 <= m < 12 /\ 1 <= d <= len_mp y m.
Definition year_start (y : Z) : Z := y * 365 + y / 4 - y / 100.
Definition long_year (y : Z) : bool := leap (y + 1).

(** A year of an era by centuries, cycles of four years and years in a cycle. *)
Lemma year_parts : forall y, 0 <= y < 400 -> exists a b c, y = 100 * a + 4 * b + c /\ 0 <= a < 4 /\ 0 <= b < 25 /\ 0 <= c < 4 /\
  year_start y = 36524 * a + 1461 * b + 365 * c /\ long_year y = ((c =? 3) && ((b <? 24) || (a =? 3))).
Proof.
  intros y Hy. exists (y / 100), (y mod 100 / 4), (y mod 4). unfold year_start, long_year, leap.
  assert (y / 4 = 25 * (y / 100) + y mod 100 / 4) as E by lia. rewrite E.
  assert (y = 100 * (y / 100) + 4 * (y mod 100 / 4) + y mod 4) as P by lia.
  set (a := y / 100) in *. set (b := y mod 100 / 4) in *. set (c := y mod 4) in *. assert (0 <= a < 4) as Ha by (unfold a; lia). assert (0 <= b < 25) as Hb by (unfold b; lia). assert (0 <= c < 4) as Hc by (unfold c; lia).
  clearbody a b c. repeat (apply conj; try assumption); try lia.
Qed.
Lemma year_found : forall y doy, 0 <= y < 400 -> 0 <= doy < (if long_year y then 366 else 365) ->
  let doe := year_start y + doy in (doe - doe / 1460 + doe / 36524 - doe / 146096) / 365 = y /\ 0 <= doe < 146097.
Proof.
  intros y doy Hy Hd. destruct (year_parts y Hy) as (a & b & c & -> & Ha & Hb & Hc & -> & L). rewrite L in Hd. clear L. cbv zeta.
  assert (doy <= 365 /\ (doy = 365 -> c = 3 /\ (b < 24 \/ a = 3))) as [D1 D2] by (destruct ((c =? 3) && ((b <? 24) || (a =? 3))) eqn:Q; lia). assert (0 <= doy) as D0 by lia. clear Hd.
  set (e := 36524 * a + 1461 * b + 365 * c + doy).
  assert (e / 36524 - e / 146096 = a) as E1 by (unfold e; lia).
  assert (e / 1460 = 25 * a + b + (24 * a + b + 365 * c + doy) / 1460) as E2 by (unfold e; lia).
  set (s := (24 * a + b + 365 * c + doy) / 1460) in *. assert (0 <= doy - s < 365) as Hs by (unfold s; lia).
  split; [|unfold e; lia].
  replace (e - e / 1460 + e / 36524 - e / 146096) with (365 * (100 * a + 4 * b + c) + (doy - s)) by (unfold e in *; lia).
  clearbody s. lia.
Qed.
Lemma month_found : forall y m d, valid y m d -> let doy := (153 * m + 2) / 5 + d - 1 in
  0 <= doy < (if long_year y then 366 else 365) /\ (5 * doy + 2) / 153 = m /\ doy - (153 * m + 2) / 5 + 1 = d.
Proof.
  intros y m d (Hy & Hm & Hd). cbv zeta. unfold len_mp in Hd. fold (long_year y) in Hd.
  assert (m = 0 \/ m = 1 \/ m = 2 \/ m = 3 \/ m = 4 \/ m = 5 \/ m = 6 \/ m = 7 \/ m = 8 \/ m = 9 \/ m = 10 \/ m = 11) as C by lia.
  destruct (long_year y); repeat (destruct C as [-> |C]); try subst m; cbn [Z.eqb Pos.eqb orb] in Hd; lia.
Qed.
Lemma doe_parts : forall y m d, doe_of y m d = year_start y + ((153 * m + 2) / 5 + d - 1).
Proof. intros. unfold doe_of, year_start. reflexivity. Qed.
Lemma doe_back : forall y m d, valid y m d -> of_doe (doe_of y m d) = (y, m, d) /\ 0 <= doe_of y m d < 146097.
Proof.
  intros y m d V. destruct (month_found y m d V) as (B & M & D). destruct (year_found y _ (proj1 V) B) as [Y R]. rewrite doe_parts. split; [|exact R].
  unfold of_doe. rewrite Y. fold (year_start y). replace (365 * y + y / 4 - y / 100) with (year_start y) by (unfold year_start; lia).
  set (doy := (153 * m + 2) / 5 + d - 1) in *. replace (year_start y + doy - year_start y) with doy by lia. rewrite M, D. reflexivity.
Qed.
(** The year starts where the last one ends. *)
Lemma year_length : forall y, 0 <= y < 399 -> year_start (y + 1) = year_start y + (if long_year y then 366 else 365).
Proof.
  intros y Hy. destruct (year_parts y) as (a & b & c & E & Ha & Hb & Hc & S1 & L); [lia|]. rewrite S1, L.
  destruct (year_parts (y + 1)) as (a' & b' & c' & E' & Ha' & Hb' & Hc' & S2 & _); [lia|]. rewrite S2.
  destruct ((c =? 3) && ((b <? 24) || (a =? 3))) eqn:Q; lia.
Qed.
Lemma year_of_day : forall n doe, 0 <= doe -> doe < year_start (Z.of_nat n) -> (n <= 399)%nat -> exists y, 0 <= y < Z.of_nat n /\ 0 <= doe - year_start y < (if long_year y then 366 else 365).
Proof.
  induction n as [|n IH]; intros doe H0 H Hn; [change (year_start (Z.of_nat 0)) with 0 in H; lia|].
  destruct (Z_lt_ge_dec doe (year_start (Z.of_nat n))) as [L|G].
  - destruct (IH doe H0 L ltac:(lia)) as (y & Hy & B). exists y. split; [lia|exact B].
  - exists (Z.of_nat n). split; [lia|]. replace (Z.of_nat (S n)) with (Z.of_nat n + 1) in H by lia. rewrite year_length in H by lia. lia.
Qed.
Lemma day_found : forall doe, 0 <= doe < 146097 -> exists y m d, valid y m d /\ doe = doe_of y m d.
Proof.
  intros doe Hd. assert (exists y, 0 <= y < 400 /\ 0 <= doe - year_start y < (if long_year y then 366 else 365)) as (y & Hy & B).
  { destruct (Z_lt_ge_dec doe (year_start 399)) as [L|G].
    - destruct (year_of_day 399 doe) as (y & Hy & B); [lia|exact L|lia|]. exists y. split; [lia|exact B].
    - exists 399. split; [lia|]. change (year_start 399) with 145731 in *. change (long_year 399) with true. lia. }
  set (doy := doe - year_start y) in *. exists y, ((5 * doy + 2) / 153), (doy - (153 * ((5 * doy + 2) / 153) + 2) / 5 + 1).
  set (m := (5 * doy + 2) / 153). assert (0 <= m < 12) as Hm by (unfold m; destruct (long_year y); lia).
  assert (153 * m <= 5 * doy + 2 < 153 * m + 153) as R by (unfold m; lia).
  split; [|rewrite doe_parts; lia]. split; [exact Hy|]. split; [exact Hm|]. clearbody m. unfold len_mp. fold (long_year y).
  assert (m = 0 \/ m = 1 \/ m = 2 \/ m = 3 \/ m = 4 \/ m = 5 \/ m = 6 \/ m = 7 \/ m = 8 \/ m = 9 \/ m = 10 \/ m = 11) as C by lia.
  destruct (long_year y); repeat (destruct C as [-> |C]); try subst m; cbn [Z.eqb Pos.eqb orb]; lia.
Qed.
Lemma next_doe : forall y m d, valid y m d -> doe_of y m d <> 146096 ->
  exists y' m' d', next_mp (y, m, d) = (y', m', d') /\ valid y' m' d' /\ doe_of y' m' d' = doe_of y m d + 1.
Proof.
  intros y m d V Ne. destruct V as (Hy & Hm & Hd). unfold next_mp. destruct (d <? len_mp y m) eqn:Q.
  - exists y, m, (d + 1). split; [reflexivity|]. split; [split; [exact Hy|]; split; [exact Hm|lia]|]. rewrite !doe_parts. lia.
  - assert (d = len_mp y m) as -> by lia. destruct (m =? 11) eqn:M.
    + assert (m = 11) as -> by lia. assert (y <> 399) as N9 by (intros ->; apply Ne; reflexivity).
      exists (y + 1), 0, 1. split; [reflexivity|]. split; [split; [lia|]; split; [lia|cbn; lia]|]. rewrite !doe_parts, year_length by lia. unfold len_mp. cbn [Z.eqb Pos.eqb]. fold (long_year y).
      destruct (long_year y); lia.
    + exists y, (m + 1), 1. split; [reflexivity|]. split.
      * split; [exact Hy|]. split; [lia|]. unfold len_mp. destruct (leap (y + 1)); destruct (m + 1 =? 11), ((m + 1 =? 1) || (m + 1 =? 3) || (m + 1 =? 6) || (m + 1 =? 8)); lia.
      * rewrite !doe_parts. unfold len_mp. rewrite M.
        assert (m = 0 \/ m = 1 \/ m = 2 \/ m = 3 \/ m = 4 \/ m = 5 \/ m = 6 \/ m = 7 \/ m = 8 \/ m = 9 \/ m = 10) as C by lia.
        repeat (destruct C as [-> |C]); try subst m; cbn [Z.eqb Pos.eqb orb]; lia.
Qed.

(** What CalendarProofs2.v needs. *)
Definition check (doe : Z) : bool :=
  let '(y, m, d) := of_doe doe in
  (0 <=? y) && (y <? 400) && (0 <=? m) && (m <? 12) && (1 <=? d) && (d <=? len_mp y m) && (doe_of y m d =? doe) &&
  (let '(y1, m1, d1) := (if doe =? 146096 then (400, 0, 1) else of_doe (doe + 1)) in
   let '(y2, m2, d2) := next_mp (y, m, d) in (y1 =? y2) && (m1 =? m2) && (d1 =? d2)).
Lemma era_checked : forall doe, 0 <= doe < 146097 -> check doe = true.
Proof.
  intros doe Hd. destruct (day_found doe Hd) as (y & m & d & V & ->). unfold check. rewrite (proj1 (doe_back y m d V)).
  assert ((let '(y1, m1, d1) := (if doe_of y m d =? 146096 then (400, 0, 1) else of_doe (doe_of y m d + 1)) in
   let '(y2, m2, d2) := next_mp (y, m, d) in (y1 =? y2) && (m1 =? m2) && (d1 =? d2)) = true) as ->.
  { destruct (doe_of y m d =? 146096) eqn:Q.
    - assert (valid 399 11 29) as V9 by (split; [lia|]; split; [lia|]; cbn; lia). pose proof (doe_back _ _ _ V) as [E _]. assert (doe_of y m d = doe_of 399 11 29) as Eq by (change (doe_of 399 11 29) with 146096; lia). rewrite Eq in E.
      rewrite (proj1 (doe_back _ _ _ V9)) in E. injection E as <- <- <-. reflexivity.
    - destruct (next_doe y m d V ltac:(lia)) as (y' & m' & d' & -> & V' & E). rewrite <- E, (proj1 (doe_back _ _ _ V')). lia. }
  destruct V as (Hy & Hm & Hv). lia.
Qed.
