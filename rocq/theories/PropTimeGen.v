(** C96: a generated text is accepted by the format it was made with, and tells the moment it was made for. *)
From Coq Require Import Ascii String List Arith NArith ZArith Lia Bool ZifyBool ZifyN ZifyNat.
From Verif Require Import Base Text Calendar CalendarProofs2 DateProofs TimeFormat SpecTimeFormat SpecTimeGen TimeFormatProofs TimeFormatProofs2 PropTimeFormat PropTimeFormat2.
Import ListNotations.
Open Scope Z_scope.
Ltac Zify.zify_post_hook ::= Z.div_mod_to_equations.
Local Opaque show_N civil day_number.

(** * Digits *)
Lemma digit_of_digit : forall z, digit (digit_of z).
Proof. intro z; unfold digit, digit_of. lia. Qed.
Lemma digits_all_digit : forall n z, Forall digit (digits n z).
Proof. induction n as [|n IH]; intro z; cbn; [constructor|]. apply Forall_app; split; [apply IH|]. constructor; [apply digit_of_digit|constructor]. Qed.
Lemma digits_length : forall n z, length (digits n z) = n.
Proof. induction n as [|n IH]; intro z; cbn; [reflexivity|]. rewrite app_length, IH. cbn. lia. Qed.
Lemma digits_value : forall n z, 0 <= z < 10 ^ Z.of_nat n -> num (digits n z) = z.
Proof.
  unfold num. induction n as [|n IH]; intros z H.
  - cbn in *. lia.
  - cbn [digits]. unfold value. rewrite fold_left_app. cbn [fold_left]. fold (value (digits n (z / 10))).
    rewrite Nat2Z.inj_succ, Z.pow_succ_r in H by lia.
    assert (E : Z.of_N (value (digits n (z / 10))) = z / 10) by (apply IH; split; [lia|apply Z.div_lt_upper_bound; lia]).
    unfold digit_of. clear IH. zify. lia.
Qed.
Lemma digits_upto_digits : forall n z r, (1 <= n)%nat -> digits_upto n (digits n z) r.
Proof.
  intros n z r H. repeat split.
  - intro E. apply (f_equal (@length N)) in E. rewrite digits_length in E. cbn in E. lia.
  - apply digits_all_digit.
  - rewrite digits_length; lia.
  - left; apply digits_length.
Qed.
Lemma numeral_digits : forall n z lo hi r, (1 <= n)%nat -> 0 <= z < 10 ^ Z.of_nat n -> Z.of_N lo <= z <= Z.of_N hi -> numeral n lo hi (digits n z) r.
Proof.
  intros n z lo hi r H B C. split; [apply digits_upto_digits; exact H|]. pose proof (digits_value n z B) as V. unfold num in V. lia.
Qed.

Section Written.
Variable ab zs : str -> bool.
Variable n h mi s fr off : Z.
Hypothesis clock : on_the_clock h mi s fr.
Hypothesis years : 0 <= d_year (civil n) <= 9999.
Hypothesis offset : -720 < off < 720.
Let t := moment n h mi s fr.
Lemma t_day : day_of t = n.
Proof. unfold t, moment, day_of, at_day, ns_per_day. destruct clock as (H1 & H2 & H3 & H4). symmetry. apply Z.div_unique with (r := ((h * 60 + mi) * 60 + s) * 1000000000 + fr); lia. Qed.
Lemma t_ns : ns_of_day t = ((h * 60 + mi) * 60 + s) * 1000000000 + fr.
Proof. unfold t, moment, ns_of_day, at_day, ns_per_day. destruct clock as (H1 & H2 & H3 & H4). symmetry. apply Z.mod_unique with (q := n); lia. Qed.
Lemma t_hour : hour_of t = h.
Proof. unfold hour_of. rewrite t_ns. destruct clock as (H1 & H2 & H3 & H4). symmetry. apply Z.div_unique with (r := (mi * 60 + s) * 1000000000 + fr); lia. Qed.
Lemma t_minute : ns_of_day t / 60000000000 mod 60 = mi.
Proof.
  rewrite t_ns. destruct clock as (H1 & H2 & H3 & H4).
  replace ((((h * 60 + mi) * 60 + s) * 1000000000 + fr) / 60000000000) with (h * 60 + mi).
  - symmetry. apply Z.mod_unique with (q := h); lia.
  - apply Z.div_unique with (r := s * 1000000000 + fr); lia.
Qed.
Lemma t_second : ns_of_day t / 1000000000 mod 60 = s.
Proof.
  rewrite t_ns. destruct clock as (H1 & H2 & H3 & H4).
  replace ((((h * 60 + mi) * 60 + s) * 1000000000 + fr) / 1000000000) with ((h * 60 + mi) * 60 + s).
  - symmetry. apply Z.mod_unique with (q := h * 60 + mi); lia.
  - apply Z.div_unique with (r := fr); lia.
Qed.
(** [k] digits of a number with more: the lowest ones. *)
Lemma digits_mod : forall k a b, 0 <= b < 10 ^ Z.of_nat k -> num (digits k (a * 10 ^ Z.of_nat k + b)) = b.
Proof.
  unfold num. induction k as [|k IH]; intros a b H; [cbn in *; lia|].
  cbn [digits]. unfold value. rewrite fold_left_app. cbn [fold_left].
  fold (value (digits k ((a * 10 ^ Z.of_nat (S k) + b) / 10))).
  rewrite Nat2Z.inj_succ, Z.pow_succ_r in * by lia. set (P := 10 ^ Z.of_nat k) in *.
  replace ((a * (10 * P) + b) / 10) with (a * P + b / 10).
  2:{ apply Z.div_unique with (r := b mod 10); lia. }
  assert (E : Z.of_N (value (digits k (a * P + b / 10))) = b / 10) by (apply IH; split; [lia|apply Z.div_lt_upper_bound; lia]).
  unfold digit_of. replace ((a * (10 * P) + b) mod 10) with (b mod 10).
  - clearbody P. clear IH. lia.
  - apply Z.mod_unique with (q := a * P + b / 10); lia.
Qed.

Local Opaque digits value.
Lemma shift_div : forall a k b, 0 < k -> (a * k + b) / k = a + b / k.
Proof. intros a k b H. rewrite Z.add_comm, Z.div_add by lia. lia. Qed.
Lemma word_of : forall (l : list string) (names : list str) i, (i < length l)%nat -> length l = length names ->
  forallb (fun e => str_eqb (ascii_lower (snd e)) (S_ (fst e))) (combine l names) = true ->
  exists w, nth_error l i = Some w /\ ascii_lower (nth i names []) = S_ w /\ In w l.
Proof.
  induction l as [|w l IH]; intros names i B L F; [cbn in B; lia|]. destruct names as [|x names]; [discriminate|].
  cbn in F. apply andb_true_iff in F as (F0 & F). destruct i as [|i].
  - exists w. cbn. apply str_eqb_eq in F0. auto.
  - cbn in B, L. destruct (IH names i ltac:(lia) ltac:(lia) F) as (w' & A & B' & C). exists w'. cbn. auto.
Qed.
Lemma word_shape : forall (l : list string) d w r, In w l -> ascii_lower d = S_ w -> forallb (fun w => str_eqb (ascii_lower (S_ w)) (S_ w)) l = true -> word l d r.
Proof.
  intros l d w r I E F. exists w. split; [exact I|]. rewrite forallb_forall in F. specialize (F w I). apply str_eqb_eq in F. congruence.
Qed.
Lemma sign_shape : forall c x r, (c = 43 \/ c = 45)%N -> Forall digit x -> x <> [] -> sign [c] (x ++ r).
Proof.
  intros c x r H F N. unfold sign. repeat split; [discriminate|constructor; auto|]. destruct x as [|a x]; [contradiction|]. cbn.
  inversion F as [|? ? D _]; subst. unfold digit in D. lia.
Qed.
Lemma offset_parts : exists sg, (sg = 43 \/ sg = 45)%N /\
  (forall c : bool, offset_text c off = [sg] ++ digits 2 (Z.abs off / 60) ++ (if c then S_ ":" else []) ++ digits 2 (Z.abs off mod 60)) /\
  ((sg = 43%N /\ off = 60 * (Z.abs off / 60) + Z.abs off mod 60) \/ (sg = 45%N /\ off = - (60 * (Z.abs off / 60) + Z.abs off mod 60))).
Proof.
  exists (if off <? 0 then 45%N else 43%N). split; [|split].
  - destruct (off <? 0); auto.
  - intros []; reflexivity.
  - destruct (off <? 0) eqn:E; [right|left]; (split; [reflexivity|]); lia.
Qed.
Lemma offset_told : forall c : bool, tells_offset off (if c then S_ ":" else []) (offset_text c off).
Proof.
  intro c. destruct offset_parts as (sg & Hs & E & V). exists sg, (digits 2 (Z.abs off / 60)), (digits 2 (Z.abs off mod 60)).
  split; [apply E|]. rewrite !digits_value; [exact V|..]; cbn; lia.
Qed.
Lemma offset_plain : forall r, (sign ;; hh ;; mm) (offset_text false off) r.
Proof.
  intro r. destruct offset_parts as (sg & Hs & E & _). rewrite E. cbn [app].
  exists [sg], (digits 2 (Z.abs off / 60) ++ digits 2 (Z.abs off mod 60)). split; [reflexivity|]. split.
  - rewrite <- app_assoc. apply sign_shape; [exact Hs|apply digits_all_digit|]. intro K. apply (f_equal (@length N)) in K. rewrite digits_length in K. discriminate.
  - eexists _, _. split; [reflexivity|]. split; apply numeral_digits; cbn; lia.
Qed.
Lemma offset_colon : forall r, (sign ;; hh ;; exactly ":" ;; mm) (offset_text true off) r.
Proof.
  intro r. destruct offset_parts as (sg & Hs & E & _). rewrite E. cbn [app].
  exists [sg], (digits 2 (Z.abs off / 60) ++ S_ ":" ++ digits 2 (Z.abs off mod 60)). split; [reflexivity|]. split.
  - rewrite <- app_assoc. apply sign_shape; [exact Hs|apply digits_all_digit|]. intro K. apply (f_equal (@length N)) in K. rewrite digits_length in K. discriminate.
  - eexists _, _. split; [reflexivity|]. split; [apply numeral_digits; cbn; lia|].
    exists (S_ ":"), (digits 2 (Z.abs off mod 60)). split; [reflexivity|]. split; [reflexivity|apply numeral_digits; cbn; lia].
Qed.

Definition text_of (k : token) : str := match write_items t off (chrono_item k) with Some x => x | None => [] end.
Lemma one_item : forall i, write_items t off [i] = option_map (fun x => x ++ []) (write_item t off i).
Proof. intro i. cbn [write_items]. destruct (write_item t off i); reflexivity. Qed.
Lemma field_written : forall k, faithful k ->
  write_items t off (chrono_item k) = Some (text_of k) /\
  (forall r, shape_of ab zs k (text_of k) r) /\ tells n h mi s fr off k (text_of k).
Proof.
  intros k F. destruct clock as (H1 & H2 & H3 & H4). pose proof (civil_facts n) as (M & D).
  assert (D31 : d_day (civil n) <= 31).
  { assert (month_length (d_year (civil n)) (d_month (civil n)) <= 31); [|lia].
    unfold month_length. repeat match goal with |- context [if ?b then _ else _] => destruct b end; lia. }
  assert (W : 0 <= weekday n < 7) by (unfold weekday; lia).
  assert (G : forall i x, chrono_item k = [i] -> write_item t off i = Some x ->
    ((forall r, shape_of ab zs k x r) /\ tells n h mi s fr off k x) ->
    write_items t off (chrono_item k) = Some (text_of k) /\ (forall r, shape_of ab zs k (text_of k) r) /\ tells n h mi s fr off k (text_of k)).
  { intros i x E Wi R. unfold text_of. rewrite E, one_item, Wi. cbn. rewrite app_nil_r. split; [reflexivity|exact R]. }
  unfold write_item in G. rewrite t_day, t_hour, t_ns in G.
  destruct k; cbn [faithful] in F; try contradiction; cbn [chrono_item] in *.
  - (* Era *) eapply G; [reflexivity|reflexivity|]. split; [|reflexivity]. intro r. exists "ad"%string. cbn; auto.
  - (* Year *) destruct F as [-> | ->].
    + eapply (G ItYear2); [reflexivity|reflexivity|]. split; [|cbn [tells Nat.eqb]; apply digits_value; cbn; lia]. intro r. apply digits_upto_digits; lia.
    + eapply (G ItYear4); [reflexivity|reflexivity|]. unfold year4.
      replace ((0 <=? d_year (civil n)) && (d_year (civil n) <=? 9999)) with true by lia.
      split; [|cbn [tells Nat.eqb]; apply digits_value; cbn; lia]. intro r. apply digits_upto_digits; lia.
  - (* Month *) destruct (n0 <=? 2)%nat eqn:E2.
    + eapply (G ItMonth); [reflexivity|reflexivity|]. cbn [shape_of]. rewrite E2. split; [intro r; apply numeral_digits; cbn; lia|].
      right. repeat split.
      * intro K. apply (f_equal (@length N)) in K. rewrite digits_length in K. discriminate.
      * apply digits_all_digit.
      * symmetry. apply digits_value; cbn; lia.
    + destruct (3 <? n0)%nat eqn:E3.
      * eapply (G ItMonthLong); [reflexivity|reflexivity|]. cbn [shape_of]. rewrite E2. replace (n0 =? 3)%nat with false by lia.
        destruct (word_of months_long month_names (Z.to_nat (d_month (civil n) - 1)) ltac:(cbn; lia) eq_refl eq_refl) as (w & A & B & C).
        split; [intro r; apply (word_shape _ _ w); auto|]. left. exists (Z.to_nat (d_month (civil n) - 1)), w. repeat split; auto. lia.
      * eapply (G ItMonthShort); [reflexivity|reflexivity|]. cbn [shape_of]. rewrite E2. replace (n0 =? 3)%nat with true by lia.
        destruct (word_of months_short month_shorts (Z.to_nat (d_month (civil n) - 1)) ltac:(cbn; lia) eq_refl eq_refl) as (w & A & B & C).
        split; [intro r; apply (word_shape _ _ w); auto|]. left. exists (Z.to_nat (d_month (civil n) - 1)), w. repeat split; auto. lia.
  - (* MonthNum *) eapply (G ItMonth); [reflexivity|reflexivity|]. split; [intro r; apply numeral_digits; cbn; lia|cbn [tells Nat.eqb]; apply digits_value; cbn; lia].
  - (* Literal *) eapply G; [reflexivity|reflexivity|]. cbn. auto.
  - (* DayInMonth *) eapply G; [reflexivity|reflexivity|]. split; [intro r; apply numeral_digits; cbn; lia|cbn [tells Nat.eqb]; apply digits_value; cbn; lia].
  - (* DayName *) destruct (3 <? n0)%nat eqn:E3.
    + eapply (G ItDayLong); [reflexivity|reflexivity|]. cbn [shape_of tells]. replace (n0 <=? 3)%nat with false by lia.
      destruct (word_of days_long day_names (Z.to_nat (weekday n)) ltac:(cbn; lia) eq_refl eq_refl) as (w & A & B & C).
      split; [intro r; apply (word_shape _ _ w); auto|]. eauto.
    + eapply (G ItDayShort); [reflexivity|reflexivity|]. cbn [shape_of tells]. replace (n0 <=? 3)%nat with true by lia.
      destruct (word_of days_short day_shorts (Z.to_nat (weekday n)) ltac:(cbn; lia) eq_refl eq_refl) as (w & A & B & C).
      split; [intro r; apply (word_shape _ _ w); auto|]. eauto.
  - (* DayOfWeek *) eapply (G ItDayNumber); [reflexivity|reflexivity|]. cbn [shape_of tells]. replace (n0 <=? 2)%nat with true by lia.
    split; [intro r; apply numeral_digits; cbn; lia|apply digits_value; cbn; lia].
  - (* AmPm *) eapply (G ItAmPm); [reflexivity|reflexivity|]. cbn [shape_of tells]. destruct (h <? 12).
    + split; [|reflexivity]. intro r. exists "am"%string. cbn; auto.
    + split; [|reflexivity]. intro r. exists "pm"%string. cbn; auto.
  - (* Hour24ZeroBased *) eapply G; [reflexivity|reflexivity|]. split; [intro r; apply numeral_digits; cbn; lia|cbn [tells Nat.eqb]; apply digits_value; cbn; lia].
  - (* Hour12 *) eapply G; [reflexivity|reflexivity|]. split; [intro r; apply numeral_digits; cbn; lia|].
    cbn [tells]. rewrite digits_value by (cbn; lia). split; lia.
  - (* Minute *) eapply G; [reflexivity|reflexivity|]. rewrite <- t_ns, t_minute. split; [intro r; apply numeral_digits; cbn; lia|cbn [tells Nat.eqb]; apply digits_value; cbn; lia].
  - (* Second *) eapply G; [reflexivity|reflexivity|]. rewrite <- t_ns, t_second. split; [intro r; apply numeral_digits; cbn; lia|cbn [tells Nat.eqb]; apply digits_value; cbn; lia].
  - (* Millisecond *) destruct F as [-> |[-> | ->]].
    + eapply (G (ItFraction 3)); [reflexivity|reflexivity|]. split; [intro r; split; [apply digits_upto_digits|]; lia|]. cbn [tells].
      replace ((((h * 60 + mi) * 60 + s) * 1000000000 + fr) / 1000000) with (((h * 60 + mi) * 60 + s) * 10 ^ Z.of_nat 3 + fr / 1000000).
      * rewrite digits_mod; [reflexivity|]. change (10 ^ Z.of_nat 3) with 1000. lia.
      * change (10 ^ Z.of_nat 3) with 1000. apply Z.div_unique with (r := fr mod 1000000); lia.
    + eapply (G (ItFraction 6)); [reflexivity|reflexivity|]. split; [intro r; split; [apply digits_upto_digits|]; lia|]. cbn [tells].
      replace ((((h * 60 + mi) * 60 + s) * 1000000000 + fr) / 1000) with (((h * 60 + mi) * 60 + s) * 10 ^ Z.of_nat 6 + fr / 1000).
      * rewrite digits_mod; [reflexivity|]. change (10 ^ Z.of_nat 6) with 1000000. lia.
      * change (10 ^ Z.of_nat 6) with 1000000. apply Z.div_unique with (r := fr mod 1000); lia.
    + eapply (G (ItFraction 9)); [reflexivity|reflexivity|]. split; [intro r; split; [apply digits_upto_digits|]; lia|]. cbn [tells].
      change 1000000000 with (10 ^ Z.of_nat 9). rewrite digits_mod; [|change (10 ^ Z.of_nat 9) with 1000000000; lia].
      change (10 ^ (9 - Z.of_nat 9)) with 1. rewrite Z.div_1_r. reflexivity.
  - (* Z *) eapply (G ItOffset); [reflexivity|reflexivity|]. cbn [shape_of tells]. replace (n0 <=? 3)%nat with true by lia.
    split; [exact offset_plain|exact (offset_told false)].
  - (* x *) subst n0. eapply (G ItOffsetColon); [reflexivity|reflexivity|]. cbn [shape_of tells].
    split; [exact offset_colon|exact (offset_told true)].
  - (* X *) subst n0. eapply (G ItOffsetColon); [reflexivity|reflexivity|]. cbn [shape_of tells].
    split; [intro r; right; exact (offset_colon r)|exact (offset_told true)].
Qed.
End Written.

Local Opaque text_of.
Lemma write_items_app : forall t off a b, write_items t off (a ++ b) =
  match write_items t off a, write_items t off b with Some x, Some y => Some (x ++ y) | _, _ => None end.
Proof.
  intros t off; induction a as [|i a IH]; intro b; cbn; [destruct (write_items t off b); reflexivity|].
  rewrite IH. destruct (write_item t off i); [|reflexivity]. destruct (write_items t off a); [|reflexivity].
  destruct (write_items t off b); [|reflexivity]. rewrite app_assoc. reflexivity.
Qed.
Lemma leap_short : forall y m, month_length y m <= month_length (y mod 100) m.
Proof.
  intros y m. assert (L : leap y = true -> leap (y mod 100) = true).
  { unfold leap. rewrite !andb_true_iff, !orb_true_iff, !negb_true_iff, !Z.eqb_eq, !Z.eqb_neq. lia. }
  unfold month_length. destruct (m =? 2); [|lia]. destruct (leap y); [rewrite L by reflexivity; lia|destruct (leap (y mod 100)); lia].
Qed.
Lemma months_2001 : forall y m d, d <= month_length y m -> ~ (m = 2 /\ d = 29) -> d <= month_length 2001 m.
Proof. intros y m d H N. unfold month_length in *. change (leap 2001) with false. destruct (Z.eqb_spec m 2) as [->|]; [|exact H]. destruct (leap y); lia. Qed.

Lemma all_written : forall ab zs n h mi s fr off, on_the_clock h mi s fr -> 0 <= d_year (civil n) <= 9999 -> -720 < off < 720 ->
  forall ts, Forall faithful ts -> exists v,
    write_items (moment n h mi s fr) off (to_chrono_pattern ts) = Some v /\
    fits ab zs ts v (map (fun k => (k, text_of n h mi s fr off k)) ts).
Proof.
  intros ab zs n h mi s fr off C Y O ts F. induction F as [|k ts Fk F IH].
  - exists []; split; [reflexivity|constructor].
  - destruct IH as (v & W & Fi). destruct (field_written ab zs n h mi s fr off C Y O k Fk) as (Wk & Sk & _).
    exists (text_of n h mi s fr off k ++ v). split.
    + unfold to_chrono_pattern in *. cbn [flat_map]. rewrite write_items_app, Wk, W. reflexivity.
    + cbn [map]. apply fits_field; [apply Sk|exact Fi].
Qed.
Lemma first_map : forall (q : token -> Prop) (g : token -> str) ts d, first_field q (map (fun k => (k, g k)) ts) d -> exists k, In k ts /\ q k /\ d = g k.
Proof.
  intros q g ts d (b & k & a & E & K & _).
  assert (I : In (k, d) (map (fun k => (k, g k)) ts)) by (rewrite E; apply in_or_app; simpl; auto).
  apply in_map_iff in I as (k' & E' & I). inversion E'; subst. eauto.
Qed.
Lemma first_map_ex : forall (q : token -> Prop) (g : token -> str) ts, (forall k, q k \/ ~ q k) -> (exists k, In k ts /\ q k) ->
  exists d, first_field q (map (fun k => (k, g k)) ts) d.
Proof.
  intros q g ts Dq (k & I & K). induction ts as [|k0 ts IH]; [destruct I|]. cbn [map]. destruct (Dq k0) as [Q|Q].
  - exists (g k0). apply first_here; exact Q.
  - destruct I as [->|I]; [contradiction|]. destruct (IH I) as (d & Hd). exists d. apply first_skip; assumption.
Qed.

(** A text generated with a format of the fields above is accepted by the format; every field tells its part of the
    moment. *)
Theorem C96_accepted : forall ab zs f ts n h mi s fr off,
  parse_pattern f = Some ts -> Forall faithful ts -> expressible ts (civil n) ->
  on_the_clock h mi s fr -> 0 <= d_year (civil n) <= 9999 -> -720 < off < 720 ->
  exists v l, generate (moment n h mi s fr) off f = Ok v /\
    fits ab zs ts v l /\ Forall (fun e => tells n h mi s fr off (fst e) (snd e)) l /\
    validate_datetime ab zs v f = Ok tt.
Proof.
  intros ab zs f ts n h mi s fr off P F X C Y O.
  destruct (all_written ab zs n h mi s fr off C Y O ts F) as (v & W & Fi).
  set (g := text_of n h mi s fr off) in *. exists v, (map (fun k => (k, g k)) ts).
  assert (T : forall k, In k ts -> tells n h mi s fr off k (g k)).
  { intros k I. rewrite Forall_forall in F. apply (field_written ab zs n h mi s fr off C Y O k (F k I)). }
  split; [unfold generate; rewrite P, W; reflexivity|]. split; [exact Fi|]. split.
  { apply Forall_forall. intros e I. apply in_map_iff in I as (k & <- & I). cbn. apply T; exact I. }
  apply C95_accepted, (follows_tokens ab zs v f ts P). eexists; split; [exact Fi|]. pose proof (civil_facts n) as (M & D).
  assert (Yv : forall y, first_field a_year (map (fun k => (k, g k)) ts) y -> num y = d_year (civil n) mod 100 \/ num y = d_year (civil n)).
  { intros y Fy. apply first_map in Fy as (k & I & (c & ->) & ->). specialize (T _ I). cbn [tells] in T. destruct (c =? 2)%nat; auto. }
  split.
  - intros d m k Fd Fm Mk. apply first_map in Fd as (kd & Id & -> & ->). pose proof (T _ Id) as Td. cbn [tells] in Td.
    apply first_map in Fm as (km & Im & (c & ->) & ->). pose proof (T _ Im) as Tm. cbn [tells] in Tm.
    assert (k = d_month (civil n)).
    { rewrite Forall_forall in F. destruct (field_written ab zs n h mi s fr off C Y O (Month c) (F _ Im)) as (_ & Sm & _).
      destruct (month_shape_value ab zs c _ [] (Sm [])) as (k0 & _ & _ & U). rewrite (U k Mk). symmetry. apply U. exact Tm. }
    subst k. fold (num (g DayInMonth)). rewrite Td. split.
    + intros y Fy. fold (num y). destruct (Yv y Fy) as [-> | ->]; [|lia]. pose proof (leap_short (d_year (civil n)) (d_month (civil n))). lia.
    + intro NY. apply (months_2001 (d_year (civil n))); [lia|]. destruct X as [(c' & I)|[ND|[NM|E]]].
      * exfalso. destruct (first_map_ex a_year g ts) as (y & Hy).
        -- intro k. unfold a_year. destruct k; try (right; intros (? & ?); discriminate). left; eauto.
        -- exists (Year c'). split; [exact I|]. eexists; reflexivity.
        -- exact (NY y Hy).
      * contradiction.
      * exfalso. exact (NM c Im).
      * exact E.
  - intros d y _ Fy. specialize (Yv y Fy). unfold num in Yv. lia.
Qed.
(** The generator Date does the same with a format that has no part of the time. *)
Theorem C96_dates : forall t off f ts, parse_pattern f = Some ts ->
  (forall k, In k ts -> match k with
     | AmPm | Hour24 | Hour24ZeroBased | Hour12 | Hour12ZeroBased | Minute | Second | Millisecond _ | Nanosecond _ => False | _ => True end) ->
  generate_date t off f = generate t off f.
Proof.
  intros t off f ts P H. unfold generate_date, generate. rewrite P.
  replace (existsb of_the_time (to_chrono_pattern ts)) with false; [reflexivity|].
  symmetry. apply not_true_iff_false. intro E. apply existsb_exists in E as (i & I & E). unfold to_chrono_pattern in I. apply in_flat_map in I as (k & Ik & I).
  specialize (H k Ik). destruct k; cbn in H, I; try contradiction; repeat (destruct I as [I|I]; [|]); try contradiction; subst i;
    repeat match goal with H : context [if ?b then _ else _] |- _ => destruct b end; discriminate.
Qed.
(** With a part of the time it panics. *)
Theorem C96_date_with_time : forall t off f ts k, parse_pattern f = Some ts -> In k ts ->
  match k with
  | AmPm | Hour24 | Hour24ZeroBased | Hour12 | Hour12ZeroBased | Minute | Second | Millisecond _ | Nanosecond _ => True | _ => False end ->
  generate_date t off f = Panic.
Proof.
  intros t off f ts k P I H. unfold generate_date. rewrite P. replace (existsb of_the_time (to_chrono_pattern ts)) with true; [reflexivity|].
  symmetry. apply existsb_exists. unfold to_chrono_pattern.
  destruct k; try contradiction; eexists; (split; [apply in_flat_map; eexists; split; [exact I|cbn; left; reflexivity]|]); try reflexivity.
  destruct (n <=? 2)%nat; reflexivity.
Qed.

(** * Where generated texts are not accepted *)
(** A fraction of a second of four, five, seven, eight or ten and more digits: writing the text panics. *)
Theorem C96_fraction_panics : forall t off f ts k, parse_pattern f = Some ts -> In (Millisecond k) ts ->
  (3 < k)%nat -> k <> 6%nat -> k <> 9%nat -> generate t off f = Panic.
Proof.
  intros t off f ts k P I K6 K9 K. unfold generate. rewrite P.
  replace (write_items t off (to_chrono_pattern ts)) with (@None str); [reflexivity|]. symmetry.
  apply in_split in I as (a & b & ->). unfold to_chrono_pattern. rewrite flat_map_app, write_items_app. cbn [flat_map].
  rewrite write_items_app. cbn [chrono_item]. replace (k <? 3)%nat with false by lia. cbn [write_items write_item].
  replace (k =? 3)%nat with false by lia. replace (k =? 6)%nat with false by lia. replace (k =? 9)%nat with false by lia.
  destruct (write_items t off (flat_map chrono_item a)); reflexivity.
Qed.
Lemma single : forall ab zs v f k, parse_pattern f = Some [k] -> validate_datetime ab zs v f = Ok tt -> shape_of ab zs k v [].
Proof.
  intros ab zs v f k P H. apply C95_accepted, (follows_tokens ab zs v f [k] P) in H as (l & F & _).
  apply fits_cons in F as (x & r & l' & -> & -> & A & F). apply fits_nil in F as (-> & ->). rewrite app_nil_r. exact A.
Qed.
Lemma generate_single : forall t off f k i v, parse_pattern f = Some [k] -> chrono_item k = [i] -> generate t off f = Ok v -> write_item t off i = Some v.
Proof.
  intros t off f k i v P E H. unfold generate in H. rewrite P in H. unfold to_chrono_pattern in H. cbn [flat_map] in H. rewrite E in H.
  cbn [app write_items] in H. destruct (write_item t off i); [|discriminate]. rewrite app_nil_r in H. inversion H; reflexivity.
Qed.
(** One letter y or three: the year is written with four digits and read with one or three. *)
Theorem C96_short_years : forall ab zs t off f v, (f = S_ "y" \/ f = S_ "yyy") -> 0 <= d_year (civil (day_of t)) <= 9999 ->
  generate t off f = Ok v -> validate_datetime ab zs v f <> Ok tt.
Proof.
  intros ab zs t off f v Hf Y G H. assert (L : length v = 4%nat).
  { assert (W : write_item t off ItYear4 = Some v) by (destruct Hf; subst f; [apply (generate_single t off (S_ "y") (Year 1))|apply (generate_single t off (S_ "yyy") (Year 3))]; auto).
    unfold write_item, year4 in W. replace ((0 <=? d_year (civil (day_of t))) && (d_year (civil (day_of t)) <=? 9999)) with true in W by lia.
    assert (E : digits 4 (d_year (civil (day_of t))) = v) by congruence. rewrite <- E. apply digits_length. }
  destruct Hf; subst f.
  - apply (single ab zs v (S_ "y") (Year 1) eq_refl) in H. destruct H as (_ & _ & K & _). lia.
  - apply (single ab zs v (S_ "yyy") (Year 3) eq_refl) in H. destruct H as (_ & _ & K & _). lia.
Qed.
(** Hour 0 with k, which is from 1 to 24, and hours 0 and 12 with K, which is from 0 to 11. *)
Theorem C96_hours : forall ab zs t off f v,
  (f = S_ "kk" /\ hour_of t = 0) \/ (f = S_ "KK" /\ (hour_of t = 0 \/ hour_of t = 12)) ->
  generate t off f = Ok v -> validate_datetime ab zs v f <> Ok tt.
Proof.
  intros ab zs t off f v [(-> & Hh)|(-> & Hh)] G H.
  - apply (generate_single t off (S_ "kk") Hour24 ItHour24 v eq_refl eq_refl) in G. unfold write_item in G. rewrite Hh in G. inversion G; subst v.
    apply (single ab zs _ (S_ "kk") Hour24 eq_refl) in H. destruct H as (_ & H). cbn in H. pose proof (digits_value 2 0 ltac:(cbn; lia)) as V. unfold num in V. lia.
  - apply (generate_single t off (S_ "KK") Hour12ZeroBased ItHour12 v eq_refl eq_refl) in G. unfold write_item in G.
    replace ((hour_of t + 11) mod 12 + 1) with 12 in G by lia. inversion G; subst v.
    apply (single ab zs _ (S_ "KK") Hour12ZeroBased eq_refl) in H. destruct H as (_ & H). cbn in H. pose proof (digits_value 2 12 ltac:(cbn; lia)) as V. unfold num in V. lia.
Qed.
(** The last days of the year with D. *)
Theorem C96_day_of_year : forall ab zs t off v, 356 < day_of_year (day_of t) < 1000 ->
  generate t off (S_ "DDD") = Ok v -> validate_datetime ab zs v (S_ "DDD") <> Ok tt.
Proof.
  intros ab zs t off v D G H. apply (generate_single t off (S_ "DDD") DayInYear ItDayOfYear v eq_refl eq_refl) in G. unfold write_item in G.
  assert (E : digits 3 (day_of_year (day_of t)) = v) by congruence. subst v. clear G.
  apply (single ab zs _ (S_ "DDD") DayInYear eq_refl) in H. destruct H as (_ & H).
  assert (B : 0 <= day_of_year (day_of t) < 10 ^ Z.of_nat 3) by (change (10 ^ Z.of_nat 3) with 1000; lia).
  pose proof (digits_value 3 (day_of_year (day_of t)) B) as V. unfold num in V. lia.
Qed.
(** Names of zones and the offset of four letters Z: what is written is never accepted. *)
Theorem C96_zones : forall ab zs t off f v, In f [S_ "z"; S_ "zz"; S_ "zzz"; S_ "zzzz"; S_ "V"; S_ "VV"; S_ "ZZZZ"] ->
  generate t off f = Ok v -> validate_datetime ab zs v f <> Ok tt.
Proof.
  intros ab zs t off f v I G H.
  assert (E : exists k i, parse_pattern f = Some [k] /\ chrono_item k = [i] /\ (i = ItZoneName \/ i = ItOffset) /\
    ((exists n, k = TimezoneName n) \/ (exists n, k = TimezoneId n) \/ k = TimezoneOffset 4)).
  { repeat (destruct I as [<-|I]; [eexists _, _; split; [vm_compute; reflexivity|split; [reflexivity|split; [auto|eauto]]]|]). destruct I. }
  destruct E as (k & i & P & Ei & Hi & Hk). apply (generate_single t off f k i v P Ei) in G. apply (single ab zs v f k P) in H.
  assert (Hv : exists c x, v = c :: x /\ (c = 43 \/ c = 45)%N).
  { destruct Hi as [-> | ->]; cbn [write_item] in G; unfold offset_text in G; inversion G; subst v; eexists _, _; (split; [reflexivity|]); destruct (off <? 0); auto. }
  destruct Hv as (c & x & -> & Hc). destruct Hk as [(m & ->)|[(m & ->)| ->]]; cbn [shape_of] in H.
  - destruct H as (_ & (Fu & _)). inversion Fu as [|? ? U _]; subst. lia.
  - destruct H as ((a & y & E & (Na & Fa & _) & _) & _). destruct a as [|a0 a]; [contradiction|]. inversion E; subst.
    inversion Fa as [|? ? L _]; subst. unfold letter_or_digit, digit in L. lia.
  - assert (K : forall d r, gmt d r -> exists c x, d = c :: x /\ (c = 71 \/ c = 85)%N).
    { intros d r [Q|Q]; unfold exactly in Q; subst d; eexists _, _; (split; [reflexivity|]); cbn; auto. }
    destruct H as [(a & y & E & A & _)|(A & _)].
    + destruct (K _ _ A) as (c' & x' & -> & Hc'). inversion E; subst. lia.
    + destruct (K _ _ A) as (c' & x' & E & Hc'). inversion E; subst. lia.
Qed.
Lemma some_inj : forall (a b : str), Some a = Some b -> a = b. Proof. congruence. Qed.
(** Without a format the generator of timestamps writes a text that the rule without a format never accepts. *)
Theorem C96_default_timestamp : forall ab zs t off v, 0 <= d_year (civil (day_of t)) <= 9999 ->
  write_items t off default_datetime_items = Some v ->
  validate_datetime ab zs v (S_ "yyyy-MM-dd'T'HH:mm:ssXXX") <> Ok tt.
Proof.
  intros ab zs t off v Y W H.
  assert (P : parse_pattern (S_ "yyyy-MM-dd'T'HH:mm:ssXXX") = Some [Year 4; Literal (S_ "-"); Month 2; Literal (S_ "-"); DayInMonth; Literal (S_ "T"); Hour24ZeroBased; Literal (S_ ":"); Minute; Literal (S_ ":"); Second; TimezoneOffsetXZZero 3]) by (vm_compute; reflexivity).
  apply C95_accepted, (follows_tokens ab zs v _ _ P) in H as (l & F & _). clear P.
  unfold default_datetime_items in W. cbn [write_items write_item Nat.eqb] in W. unfold year4 in W.
  replace ((0 <=? d_year (civil (day_of t))) && (d_year (civil (day_of t)) <=? 9999)) with true in W by lia.
  cbv beta zeta iota in W. apply some_inj in W. rename W into E.
  assert (step : forall k d z r (x : str), digits_upto k d r -> d ++ r = digits k z ++ x -> (1 <= k)%nat -> r = x).
  { intros k d z r x (N0 & Fd & L & M) E0 K. assert (Ld : length d = k).
    { destruct M as [M|M]; [exact M|]. destruct (Nat.eq_dec (length d) k) as [e|e]; [exact e|exfalso]. 
      assert (Q : exists c r', r = c :: r' /\ In c (digits k z)).
      { assert (E1 : firstn k (d ++ r) = digits k z) by (rewrite E0, firstn_app, digits_length, Nat.sub_diag; cbn; rewrite app_nil_r; rewrite <- (digits_length k z) at 1; apply firstn_all).
        rewrite firstn_app in E1. assert (Lr : (1 <= k - length d)%nat) by lia. destruct r as [|c r'].
        - apply (f_equal (@length N)) in E1. rewrite digits_length, app_length, firstn_length, firstn_nil in E1. cbn in E1. lia.
        - exists c, r'. split; [reflexivity|]. rewrite <- E1. apply in_or_app; right. destruct (k - length d)%nat; [lia|]. cbn; auto. }
      destruct Q as (c & r' & -> & I). apply M. cbn. pose proof (digits_all_digit k z) as Fz. rewrite Forall_forall in Fz. apply Fz; exact I. }
    apply same_prefix in E0 as (_ & E0); [exact E0|]. rewrite digits_length. exact Ld. }
  Local Ltac next F := let d := fresh "d" in let r := fresh "r" in let l := fresh "l" in let A := fresh "A" in
    apply fits_cons in F as (d & r & l & -> & -> & A & F).
  next F. next F. next F. next F. next F. next F. next F. next F. next F. next F. next F. next F.
  apply fits_nil in F as (-> & ->). rewrite app_nil_r in *. rename E into E0. symmetry in E0.
  cbn [shape_of Nat.leb] in *. subst.
  assert (lit : forall a x y, a ++ x = a ++ y -> x = y :> str) by (intros a x y; apply app_inv_head).
  apply step in E0; [|exact A|lia]. apply lit in E0.
  apply step in E0; [|exact (proj1 A1)|lia]. apply lit in E0.
  apply step in E0; [|exact (proj1 A3)|lia]. apply lit in E0.
  apply step in E0; [|exact (proj1 A5)|lia]. apply lit in E0.
  apply step in E0; [|exact (proj1 A7)|lia]. apply lit in E0.
  rewrite app_nil_r in E0. apply step in E0; [|exact (proj1 A9)|lia].
  destruct A10 as [A10|A10].
  - unfold exactly in A10. rewrite A10 in E0. discriminate.
  - destruct (iso_sign 3 _ _ A10) as (c & x & -> & Hc). inversion E0; subst. destruct Hc; discriminate.
Qed.

Example C96_example :
  exists ts, parse_pattern (S_ "EEEE, dd MMM yyyy 'at' hh:mm:ss.SSS a XXX") = Some ts /\ Forall faithful ts /\ expressible ts (civil 19782).
Proof.
  eexists; split; [vm_compute; reflexivity|]. split; [repeat (apply Forall_cons; [cbn; auto|]); apply Forall_nil|]. unfold expressible. left. exists 4%nat. cbn. auto 20.
Qed.
Example C96_example_text : generate (moment 19782 13 4 5 678000000) (-210) (S_ "EEEE, dd MMM yyyy 'at' hh:mm:ss.SSS a XXX") =
  Ok (S_ "Thursday, 29 Feb 2024 at 01:04:05.678 PM -03:30").
Proof. vm_compute; reflexivity. Qed.
