(** C95: a text is accepted by a format exactly when it is made of the fields of the format and names a day that
    exists. *)
From Coq Require Import Ascii String List Arith NArith ZArith Lia Bool.
From Verif Require Import Base Text Calendar TimeFormat SpecTimeFormat TimeFormatProofs TimeFormatProofs2.
Import ListNotations.
Open Scope N_scope.
Local Opaque show_N.

(** * Fields *)
Definition positive (t : token) : Prop :=
  match t with TimezoneOffset n | TimezoneOffsetGmt n => (1 <= n)%nat | _ => True end.
Lemma writes_positive : forall f ts, writes f ts -> Forall positive ts.
Proof.
  intros f ts W; induction W as [|c n t rest ts (Hn & l & k & g & I & E & -> & B) _ W IH| | |]; constructor; try exact IH; try exact I.
  assert (G : Forall (fun e => positive (snd e n)) letters) by (repeat constructor; cbn; auto).
  rewrite Forall_forall in G. exact (G _ I).
  all: try (exact Logic.I). all: try assumption.
Qed.
Definition field_is (p : str -> field_result) (a : shape) : Prop :=
  forall s d r, p s = Ok (d, r) <-> s = d ++ r /\ a d r.
Lemma of_parses : forall p a, parses p a -> field_is (fun s => of_option (p s)) a.
Proof.
  intros p a P s d r. rewrite <- (P s d r). destruct (p s) as [x|]; cbn; split; intro H; try discriminate; inversion H; reflexivity.
Qed.
Lemma pow10_19 : forall n, (n <= 19)%nat -> 10 ^ N.of_nat n < two64.
Proof.
  intros n H. assert (10 ^ N.of_nat n <= 10 ^ 19) by (apply N.pow_le_mono_r; lia).
  assert (10 ^ 19 < two64) by (vm_compute; reflexivity). lia.
Qed.
Lemma pow10_20 : forall n, (20 <= n)%nat -> two64 <= 10 ^ N.of_nat n.
Proof.
  intros n H. assert (10 ^ 20 <= 10 ^ N.of_nat n) by (apply N.pow_le_mono_r; lia).
  assert (two64 < 10 ^ 20) by (vm_compute; reflexivity). lia.
Qed.
Lemma fraction_field : forall n, field_is (second_fraction n) (fun d r => digits_upto n d r /\ (n < 20)%nat).
Proof.
  intros n s d r. unfold second_fraction.
  assert (P := parses_digits n). unfold year in P.
  destruct (take_upto n is_digit s) as [[|c x] y] eqn:T.
  - split; [discriminate|]. intros (E & D & _). apply (conj E), P in D. rewrite T in D. discriminate.
  - assert (A : s = (c :: x) ++ y /\ digits_upto n (c :: x) y) by (apply P; rewrite T; reflexivity).
    destruct A as (Es & Dx). destruct (Nat.lt_ge_cases n 20) as [Ln|Ln].
    + pose proof (pow10_19 n ltac:(lia)) as B. replace (two64 <=? 10 ^ N.of_nat n) with false by (symmetry; apply N.leb_gt; exact B).
      pose proof Dx as (N0 & F & L & _). rewrite (parse_usize_value (c :: x) N0 F ltac:(lia)).
      pose proof (value_bound (c :: x) F) as V.
      assert (10 ^ N.of_nat (length (c :: x)) <= 10 ^ N.of_nat n) by (apply N.pow_le_mono_r; lia).
      replace (value (c :: x) <=? 10 ^ N.of_nat n - 1) with true by (symmetry; apply N.leb_le; lia).
      split.
      * intros [= <- <-]. auto.
      * intros (E & D & _). apply (conj E), P in D. rewrite T in D. inversion D; reflexivity.
    + replace (two64 <=? 10 ^ N.of_nat n) with true by (symmetry; apply N.leb_le, pow10_20; exact Ln).
      split; [discriminate|]. lia.
Qed.
Lemma number_field : forall n lo hi, (n <= 19)%nat -> field_is (fun s => of_option (number n lo hi s)) (numeral n lo hi).
Proof. intros; apply of_parses, parses_number; assumption. Qed.
Lemma words_field : forall l, prefix_free l = true -> field_is (fun s => of_option (first_of (fun t => tag_no_case t s) (map S_ l))) (word l).
Proof. intros l H. exact (of_parses _ _ (parses_words l H)). Qed.

Ltac num := match goal with |- field_is _ (numeral ?n ?lo ?hi) => let H := fresh in assert (H : (n <= 19)%nat) by lia; exact (number_field n lo hi H) end.
Section Values.
Variable ab zs : str -> bool.
Lemma field_shape : forall t, positive t -> field_is (field ab zs t) (shape_of ab zs t).
Proof.
  intros t Ht; change (field ab zs t) with (fun s => field ab zs t s); destruct t; cbn [field shape_of].
  - exact (words_field ["ad"; "bc"]%string eq_refl).
  - exact (of_parses _ _ (parses_digits n)).
  - unfold month. destruct (n <=? 2)%nat; [num|]. destruct (n =? 3)%nat.
    + exact (words_field months_short eq_refl).
    + exact (words_field months_long eq_refl).
  - num.
  - exact (of_parses _ _ (tag_spec t)).
  - num.
  - destruct from_one; num.
  - num.
  - num.
  - unfold day_of_week_name. destruct (n <=? 3)%nat.
    + exact (words_field days_short eq_refl).
    + exact (words_field days_long eq_refl).
  - unfold day_of_week. destruct (Nat.ltb_spec 2 n) as [L|L].
    + replace (n <=? 2)%nat with false by (symmetry; apply Nat.leb_gt; lia). unfold day_of_week_name.
      destruct (Nat.leb_spec n 3) as [M|M].
      * replace (n =? 3)%nat with true by (symmetry; apply Nat.eqb_eq; lia). exact (words_field days_short eq_refl).
      * replace (n =? 3)%nat with false by (symmetry; apply Nat.eqb_neq; lia). exact (words_field days_long eq_refl).
    + replace (n <=? 2)%nat with true by (symmetry; apply Nat.leb_le; lia). num.
  - exact (words_field ["am"; "pm"]%string eq_refl).
  - num.
  - num.
  - num.
  - num.
  - num.
  - num.
  - apply fraction_field.
  - exact (of_parses _ _ parses_digit1).
  - exact (of_parses _ _ (parses_zone_offset n Ht)).
  - exact (of_parses _ _ (parses_iso n)).
  - exact (of_parses _ _ (parses_iso_z n)).
  - exact (of_parses _ _ (parses_gmt_offset n Ht)).
  - exact (of_parses _ _ (parses_zone_name ab n)).
  - exact (of_parses _ _ (parses_zone_id zs)).
  - unfold quarter. destruct (Nat.ltb_spec n 3) as [L|L].
    + replace (n <=? 2)%nat with true by (symmetry; apply Nat.leb_le; lia). num.
    + replace (n <=? 2)%nat with false by (symmetry; apply Nat.leb_gt; lia). destruct (n =? 3)%nat.
      * exact (words_field ["Q1"; "Q2"; "Q3"; "Q4"]%string eq_refl).
      * apply of_parses. apply parses_then.
        -- exact (parses_words ["1st"; "2nd"; "3rd"; "4th"]%string eq_refl).
        -- refine (parses_same _ _ _ _ (tag_no_case_spec _)). intros d r; unfold word; split.
           ++ intro H. exists " quarter"%string; simpl; auto.
           ++ intros (w & [<-|[]] & H). exact H.
  - num.
  - exact (of_parses _ _ parses_digit1).
  - exact (of_parses _ _ parses_digit1).
Qed.
Lemma fields_fits : forall ts, Forall positive ts -> forall v l, fields ab zs ts v = Ok l <-> fits ab zs ts v l.
Proof.
  induction ts as [|t ts IH]; intros P v l; cbn [fields].
  - split.
    + destruct v; [intros [= <-]; constructor|discriminate].
    + intro F; inversion F; reflexivity.
  - inversion P as [|t' ts' Pt Pts]; subst. split.
    + intro H. destruct (field ab zs t v) as [[d r]| |] eqn:E; try discriminate. cbn in H.
      destruct (fields ab zs ts r) as [l'| |] eqn:E'; try discriminate. cbn in H. inversion H; subst.
      apply (field_shape t Pt) in E as (-> & A). apply fits_field; [exact A|]. apply IH; assumption.
    + intro F. inversion F as [|t' ts' d rest l' A F']; subst.
      rewrite (proj2 (field_shape t Pt (d ++ rest) d rest) (conj eq_refl A)). cbn.
      rewrite (proj2 (IH Pts rest l') F'). reflexivity.
Qed.
Lemma field_panic : forall t s, field ab zs t s = Panic -> exists n, t = Millisecond n /\ (20 <= n)%nat.
Proof.
  intros t s. assert (G : forall A (o : option A), of_option o <> Panic) by (intros A [|]; discriminate).
  destruct t; cbn [field]; try (intro H; exfalso; exact (G _ _ H)). intro H. exists n; split; [reflexivity|].
  unfold second_fraction in H. destruct (take_upto n is_digit s) as [[|c x] y]; [discriminate|].
  destruct (N.leb_spec two64 (10 ^ N.of_nat n)) as [B|B].
  - destruct (Nat.le_gt_cases 20 n) as [L|L]; [exact L|]. pose proof (pow10_19 n ltac:(lia)). lia.
  - destruct (parse_usize (c :: x)) as [v|]; [|discriminate]. destruct (v <=? _); discriminate.
Qed.
Lemma fields_panic : forall ts v, fields ab zs ts v = Panic -> exists n, In (Millisecond n) ts /\ (20 <= n)%nat.
Proof.
  induction ts as [|t ts IH]; intros v H; cbn [fields] in H; [destruct v; discriminate|].
  destruct (field ab zs t v) as [[d r]| |] eqn:E; [|discriminate|].
  - cbn in H. destruct (fields ab zs ts r) as [l| |] eqn:E'; try discriminate. destruct (IH r E') as (n & I & L). exists n; simpl; auto.
  - destruct (field_panic t v E) as (n & -> & L). exists n; simpl; auto.
Qed.

(** * The day *)
Lemma find_first : forall (p : token -> bool) (q : token -> Prop), (forall t, p t = true <-> q t) ->
  forall l d, matched p l = Some d <-> first_field q l d.
Proof.
  intros p q H l d; unfold matched, first_field. induction l as [|[t x] l IH]; cbn.
  - split; [discriminate|]. intros (b & t & a & E & _). destruct b; discriminate.
  - destruct (p t) eqn:P.
    + split.
      * intros [= <-]. exists [], t, l. repeat split; [apply H; exact P|constructor].
      * intros (b & t' & a & E & K & F). destruct b as [|e b].
        -- cbn in E. inversion E; subst. reflexivity.
        -- exfalso. cbn in E. inversion E; subst. inversion F as [|e' b' Fe Fb]; subst. cbn in Fe. apply Fe, H, P.
    + rewrite IH. split.
      * intros (b & t' & a & -> & K & F). exists ((t, x) :: b), t', a. repeat split; auto. constructor; auto.
        cbn. intro K'. apply H in K'. congruence.
      * intros (b & t' & a & E & K & F). destruct b as [|e b].
        -- exfalso. cbn in E. inversion E; subst. apply H in K. congruence.
        -- cbn in E. inversion E; subst. exists b, t', a. inversion F; subst. auto.
Qed.
Lemma day_first : forall l d, matched is_day l = Some d <-> first_field a_day l d.
Proof. apply find_first. unfold a_day. intros []; cbn; split; congruence. Qed.
Lemma month_first : forall l d, matched is_month l = Some d <-> first_field a_month l d.
Proof. apply find_first. unfold a_month. intros []; cbn; (split; [try discriminate|intros (k & E); congruence]); eauto. Qed.
Lemma year_first : forall l d, matched is_year l = Some d <-> first_field a_year l d.
Proof. apply find_first. unfold a_year. intros []; cbn; (split; [try discriminate|intros (k & E); congruence]); eauto. Qed.
Lemma fits_in : forall ts v l, fits ab zs ts v l -> forall t d, In (t, d) l -> exists r, shape_of ab zs t d r.
Proof.
  intros ts v l F; induction F as [|t ts d rest l A F IH]; intros t' d' I; [destruct I|].
  destruct I as [E|I]; [inversion E; subst; eauto|eauto].
Qed.
Lemma first_in : forall q l d, first_field q l d -> exists t, q t /\ In (t, d) l.
Proof. intros q l d (b & t & a & -> & K & _). exists t; split; [exact K|]. apply in_or_app; simpl; auto. Qed.

Lemma digits_lower : forall d, Forall digit d -> ascii_lower d = d.
Proof.
  induction d as [|c d IH]; intro F; [reflexivity|]. inversion F as [|c' d' Hc Hd]; subst.
  change (ascii_lower (c :: d)) with (Json.ascii_low c :: ascii_lower d). rewrite (IH Hd). f_equal.
  unfold Json.ascii_low, is_upper, digit in *. destruct ((65 <=? c) && (c <=? 90)) eqn:U; [|reflexivity].
  apply andb_true_iff in U as (U & _). apply N.leb_le in U. lia.
Qed.
Lemma position_none : forall x l, ~ In x l -> position x l = None.
Proof.
  intros x l; unfold position. generalize 1%nat. induction l as [|a l IH]; intros i N; [reflexivity|].
  destruct (str_eqb_spec x a) as [->|E]; [exfalso; apply N; simpl; auto|]. apply IH. intro I; apply N; simpl; auto.
Qed.
Definition starts_low (s : str) : bool := match s with c :: _ => is_lower c | [] => false end.
Lemma digits_no_name : forall d l, d <> [] -> Forall digit d -> forallb starts_low l = true -> ~ In d l.
Proof.
  intros d l N F G I. rewrite forallb_forall in G. specialize (G d I). destruct d as [|c d]; [contradiction|].
  inversion F as [|c' d' Hc Hd]; subst. cbn in G. unfold is_lower in G. unfold digit in Hc. apply andb_true_iff in G as (G & _).
  apply N.leb_le in G. lia.
Qed.
Lemma month_name_value : forall m i w, (nth_error months_short i = Some w \/ nth_error months_long i = Some w) ->
  ascii_lower m = S_ w -> month_value m = Some (Z.of_nat (S i)).
Proof.
  intros m i w H E. unfold month_value. rewrite E.
  destruct H as [H|H];
    do 12 (destruct i as [|i]; [cbn in H; inversion H; subst w; vm_compute; reflexivity|]);
    cbn in H; destruct i; discriminate.
Qed.
Lemma month_digits_value : forall m, m <> [] -> Forall digit m -> (length m <= 19)%nat -> 1 <= value m <= 12 ->
  month_value m = Some (Z.of_N (value m)).
Proof.
  intros m N F L B. unfold month_value. rewrite (digits_lower m F).
  rewrite (position_none m long_months) by (apply digits_no_name; auto).
  rewrite (position_none m short_months) by (apply digits_no_name; auto).
  unfold parse_u8. rewrite (parse_usize_value m N F L).
  replace (value m <? 256) with true by (symmetry; apply N.ltb_lt; lia).
  replace ((1 <=? value m) && (value m <=? 12)) with true; [reflexivity|].
  symmetry; apply andb_true_iff; split; apply N.leb_le; lia.
Qed.
Lemma word_not_digits : forall l d r, word l d r -> forallb (fun w => starts_low (ascii_lower (S_ w))) l = true -> d <> [] -> Forall digit d -> False.
Proof.
  intros l d r (w & I & E) G N F. rewrite forallb_forall in G. specialize (G w I). cbv beta in G. rewrite <- E, (digits_lower d F) in G.
  destruct d as [|c d]; [contradiction|]. inversion F as [|c' d' Hc Hd]; subst. cbn in G. unfold is_lower in G. unfold digit in Hc.
  apply andb_true_iff in G as (G & _). apply N.leb_le in G. lia.
Qed.
Lemma word_nth : forall l d r, word l d r -> forallb (fun w => str_eqb (ascii_lower (S_ w)) (S_ w)) l = true ->
  exists i w, nth_error l i = Some w /\ ascii_lower d = S_ w.
Proof.
  intros l d r (w & I & E) G. destruct (In_nth_error l w I) as (i & H). exists i, w. split; [exact H|].
  rewrite forallb_forall in G. specialize (G w I). apply str_eqb_eq in G. congruence.
Qed.
Lemma month_shape_value : forall n m r, shape_of ab zs (Month n) m r ->
  exists k, month_value m = Some k /\ month_meant m k /\ forall k', month_meant m k' -> k' = k.
Proof.
  intros n m r H. cbn in H.
  assert (U : forall k, month_value m = Some k -> ((exists d, m <> [] /\ Forall digit m /\ numeral 2 1 12 m d) \/ (~ (m <> [] /\ Forall digit m))) ->
    forall k', month_meant m k' -> k' = k).
  { intros k V C k' [(i & w & Hw & E & ->)|(N & F & ->)].
    - rewrite (month_name_value m i w Hw E) in V. congruence.
    - destruct C as [(d & _ & _ & ((_ & _ & L & _) & B))|C]; [|exfalso; apply C; auto].
      rewrite (month_digits_value m N F ltac:(lia) B) in V. congruence. }
  assert (W : forall l, (l = months_short \/ l = months_long) -> word l m r -> exists k, month_value m = Some k /\ month_meant m k /\ forall k', month_meant m k' -> k' = k).
  { intros l Hl Hw. assert (G1 : forallb (fun w => str_eqb (ascii_lower (S_ w)) (S_ w)) l = true) by (destruct Hl; subst; reflexivity).
    assert (G2 : forallb (fun w => starts_low (ascii_lower (S_ w))) l = true) by (destruct Hl; subst; reflexivity).
    destruct (word_nth l m r Hw G1) as (i & w & Hi & E).
    assert (Hi' : nth_error months_short i = Some w \/ nth_error months_long i = Some w) by (destruct Hl; subst; auto).
    exists (Z.of_nat (S i)). pose proof (month_name_value m i w Hi' E) as V. split; [exact V|]. split; [left; exists i, w; auto|].
    apply U; [exact V|]. right. intros (N & F). exact (word_not_digits l m r Hw G2 N F). }
  destruct (n <=? 2)%nat; [|destruct (n =? 3)%nat; eauto].
  pose proof H as ((N & F & L & _) & B). exists (Z.of_N (value m)). pose proof (month_digits_value m N F ltac:(lia) B) as V.
  split; [exact V|]. split; [right; auto|]. apply U; [exact V|]. left; eauto.
Qed.
Lemma year_shape : forall n y r, shape_of ab zs (Year n) y r -> parse_usize y = if value y <? two64 then Some (value y) else None.
Proof. intros n y r (N & F & _). rewrite (parse_usize_digits y N (proj2 (digits_iff y) F)), value_dec. reflexivity. Qed.

Lemma no_first : forall (p : token -> bool) q l, (forall d, matched p l = Some d <-> first_field q l d) -> matched p l = None -> forall d, ~ first_field q l d.
Proof. intros p q l H N d F. apply H in F. congruence. Qed.
Lemma first_unique : forall (p : token -> bool) q l, (forall d, matched p l = Some d <-> first_field q l d) -> forall x d, matched p l = Some x -> first_field q l d -> d = x.
Proof. intros p q l H x d N F. apply H in F. congruence. Qed.
Lemma small_two64 : 32768 < two64. Proof. vm_compute; reflexivity. Qed.
Lemma matched_values_spec : forall ts v l, fits ab zs ts v l ->
  (validate_matched_values l = Ok tt <-> day_exists l /\ year_small l) /\
  (validate_matched_values l = Panic <-> ~ year_small l).
Proof.
  intros ts v l F. unfold validate_matched_values, day_exists, year_small.
  destruct (matched is_day l) as [d|] eqn:D.
  2:{ pose proof (no_first is_day a_day l (day_first l) D) as ND. split; split.
      - intros _; split; intros; exfalso; eapply ND; eassumption.
      - reflexivity.
      - discriminate.
      - intro H. exfalso; apply H; intros; exfalso; eapply ND; eassumption. }
  pose proof (proj1 (day_first l d) D) as FD.
  assert (Dv : parse_u8 d = Some (value d)).
  { destruct (first_in _ _ _ FD) as (t & -> & I). destruct (fits_in ts v l F _ _ I) as (r & ((N & Fd & L & _) & B)).
    unfold parse_u8. rewrite (parse_usize_value d N Fd ltac:(lia)). replace (value d <? 256) with true by (symmetry; apply N.ltb_lt; lia). reflexivity. }
  rewrite Dv.
  assert (Md : forall m, first_field a_month l m -> exists k, month_value m = Some k /\ month_meant m k /\ forall k', month_meant m k' -> k' = k).
  { intros m FM. destruct (first_in _ _ _ FM) as (t & (n & ->) & I). destruct (fits_in ts v l F _ _ I) as (r & A). exact (month_shape_value n m r A). }
  assert (Yd : forall y, first_field a_year l y -> parse_usize y = if value y <? two64 then Some (value y) else None).
  { intros y FY. destruct (first_in _ _ _ FY) as (t & (n & ->) & I). destruct (fits_in ts v l F _ _ I) as (r & A). exact (year_shape n y r A). }
  assert (UD : forall x, first_field a_day l x -> x = d) by (intros x; apply (first_unique is_day a_day l (day_first l)); exact D).
  assert (CD : forall y m k, month_value m = Some k ->
     (check_day (value d) y m = Ok tt <-> (Z.of_N (value d) <= month_length y k)%Z) /\ check_day (value d) y m <> Panic).
  { intros y m k V. unfold check_day. rewrite V. destruct (Z.ltb_spec (month_length y k) (Z.of_N (value d))) as [B|B]; (split; [split|]); try discriminate; auto; lia. }
  destruct (matched is_year l) as [y|] eqn:Y.
  - pose proof (proj1 (year_first l y) Y) as FY. pose proof (first_unique is_year a_year l (year_first l) y) as UY. pose proof small_two64 as S64.
    rewrite (Yd y FY). destruct (N.ltb_spec (value y) two64) as [B64|B64].
    2:{ split; split; try discriminate.
        - intros (_ & H). specialize (H d y FD FY). lia.
        - intros _ H. specialize (H d y FD FY). lia.
        - reflexivity. }
    destruct (N.ltb_spec (value y) 32768) as [B|B].
    2:{ split; split; try discriminate.
        - intros (_ & H). specialize (H d y FD FY). lia.
        - intros _ H. specialize (H d y FD FY). lia.
        - reflexivity. }
    assert (YS : forall d0 y0, first_field a_day l d0 -> first_field a_year l y0 -> value y0 < 32768).
    { intros d0 y0 _ F0. rewrite (UY y0 Y F0). exact B. }
    destruct (matched is_month l) as [m|] eqn:M.
    + pose proof (proj1 (month_first l m) M) as FM. destruct (Md m FM) as (k & V & MM & UM).
      destruct (CD (Z.of_N (value y)) m k V) as (C1 & C2). split.
      * rewrite C1. split.
        -- intro H. split; [|exact YS]. intros d' m' k' Fd' Fm' Mk'. rewrite (UD d' Fd').
           rewrite (first_unique is_month a_month l (month_first l) m m' M Fm') in Mk'. rewrite (UM k' Mk'). split.
           ++ intros y' Fy'. rewrite (UY y' Y Fy'). exact H.
           ++ intro NY. exfalso. exact (NY y FY).
        -- intros (H & _). exact (proj1 (H d m k FD FM MM) y FY).
      * split; [intro H; contradiction|]. intro H; exfalso; apply H; exact YS.
    + split; split; try discriminate; try reflexivity.
      * intros _. split; [|exact YS]. intros d' m' k' _ Fm'. exfalso. exact (no_first is_month a_month l (month_first l) M m' Fm').
      * intro H; exfalso; apply H; exact YS.
  - pose proof (no_first is_year a_year l (year_first l) Y) as NY.
    assert (YS : forall d0 y0, first_field a_day l d0 -> first_field a_year l y0 -> value y0 < 32768).
    { intros d0 y0 _ F0. exfalso; exact (NY y0 F0). }
    destruct (matched is_month l) as [m|] eqn:M.
    + pose proof (proj1 (month_first l m) M) as FM. destruct (Md m FM) as (k & V & MM & UM).
      destruct (CD 2001%Z m k V) as (C1 & C2). split.
      * rewrite C1. split.
        -- intro H. split; [|exact YS]. intros d' m' k' Fd' Fm' Mk'. rewrite (UD d' Fd').
           rewrite (first_unique is_month a_month l (month_first l) m m' M Fm') in Mk'. rewrite (UM k' Mk'). split.
           ++ intros y' Fy'. exfalso; exact (NY y' Fy').
           ++ intros _. exact H.
        -- intros (H & _). exact (proj2 (H d m k FD FM MM) NY).
      * split; [intro H; contradiction|]. intro H; exfalso; apply H; exact YS.
    + split; split; try discriminate; try reflexivity.
      * intros _. split; [|exact YS]. intros d' m' k' _ Fm'. exfalso. exact (no_first is_month a_month l (month_first l) M m' Fm').
      * intro H; exfalso; apply H; exact YS.
Qed.

Lemma writes_unique : forall f ts ts', f <> [] -> writes f ts -> writes f ts' -> ts = ts'.
Proof.
  intros f ts ts' N W W'. assert (A : parse_pattern f = Some ts) by (apply parse_pattern_spec; auto).
  assert (B : parse_pattern f = Some ts') by (apply parse_pattern_spec; auto). congruence.
Qed.

(** A text is accepted exactly when it follows the format. *)
Theorem C95_accepted : forall v f, validate_datetime ab zs v f = Ok tt <-> follows ab zs v f.
Proof.
  intros v f; unfold validate_datetime, follows. destruct (parse_pattern f) as [ts|] eqn:P.
  - apply parse_pattern_spec in P as (N & W). pose proof (writes_positive f ts W) as Pos. unfold validate_datetime_string.
    split.
    + intro H. split; [exact N|]. destruct (fields ab zs ts v) as [l| |] eqn:E; try discriminate.
      apply fields_fits in E; [|exact Pos]. exists ts, l. repeat (match goal with |- _ /\ _ => split end); auto; apply (matched_values_spec ts v l E), H.
    + intros (_ & ts' & l & W' & Fl & D). rewrite <- (writes_unique f ts ts' N W W') in Fl.
      rewrite (proj2 (fields_fits ts Pos v l) Fl). cbn. apply (matched_values_spec ts v l Fl). exact D.
  - split; [discriminate|]. intros (N & ts & l & W & _). assert (parse_pattern f = Some ts) by (apply parse_pattern_spec; auto). congruence.
Qed.
(** When the call panics: a fraction of twenty and more digits, or a year of more than 16 bits beside a day. *)
Theorem C95_panics : forall v f, validate_datetime ab zs v f = Panic ->
  exists ts, writes f ts /\
    ((exists n, In (Millisecond n) ts /\ (20 <= n)%nat) \/ (exists l, fits ab zs ts v l /\ ~ year_small l)).
Proof.
  intros v f; unfold validate_datetime. destruct (parse_pattern f) as [ts|] eqn:P; [|discriminate].
  apply parse_pattern_spec in P as (N & W). pose proof (writes_positive f ts W) as Pos. unfold validate_datetime_string.
  intro H. exists ts. split; [exact W|]. destruct (fields ab zs ts v) as [l| |] eqn:E; try discriminate.
  - right. apply fields_fits in E; [|exact Pos]. exists l. split; [exact E|]. apply (matched_values_spec ts v l E). exact H.
  - left. exact (fields_panic ts v E).
Qed.
(** And such a year does make it panic. *)
Theorem C95_year_panics : forall v f ts l, writes f ts -> f <> [] -> fits ab zs ts v l -> ~ year_small l ->
  validate_datetime ab zs v f = Panic.
Proof.
  intros v f ts l W N F Y. unfold validate_datetime. rewrite (proj2 (parse_pattern_spec f ts) (conj N W)). unfold validate_datetime_string.
  rewrite (proj2 (fields_fits ts (writes_positive f ts W) v l) F). cbn. apply (matched_values_spec ts v l F). exact Y.
Qed.
End Values.

(** A format is one exactly when it is written as described; a text is a format in one way only. *)
Theorem C95_formats : forall f ts, parse_pattern f = Some ts <-> f <> [] /\ writes f ts.
Proof. exact parse_pattern_spec. Qed.
