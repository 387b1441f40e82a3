(** C95, continued: what the formats that are used by default accept, and consequences that may surprise. *)
From Coq Require Import Ascii String List Arith NArith ZArith Lia Bool.
From Verif Require Import Base Text Calendar TimeFormat SpecTimeFormat TimeFormatProofs TimeFormatProofs2 PropTimeFormat.
Import ListNotations.
Open Scope N_scope.
Local Opaque show_N.

Lemma not_digit_char : forall c s, (c <? 48) || (57 <? c) = true -> ~ begins digit (c :: s).
Proof. intros c s H D. cbn in D. unfold digit in D. apply orb_true_iff in H as [H|H]; apply N.ltb_lt in H; lia. Qed.
(** A format is read by computation. *)
Lemma written : forall f ts, parse_pattern f = Some ts -> writes f ts.
Proof. intros f ts H. apply parse_pattern_spec in H. tauto. Qed.
Lemma follows_tokens : forall ab zs v f ts, parse_pattern f = Some ts ->
  (follows ab zs v f <-> exists l, fits ab zs ts v l /\ day_exists l /\ year_small l).
Proof.
  intros ab zs v f ts P. pose proof (proj1 (parse_pattern_spec f ts) P) as (N & W). unfold follows. split.
  - intros (_ & ts' & l & W' & H). rewrite <- (writes_unique f ts ts' N W W') in H. eauto.
  - intros (l & H). split; [exact N|]. exists ts, l; auto.
Qed.
Lemma fits_cons : forall ab zs t ts v l, fits ab zs (t :: ts) v l <->
  exists d rest l', v = d ++ rest /\ l = (t, d) :: l' /\ shape_of ab zs t d rest /\ fits ab zs ts rest l'.
Proof.
  intros; split.
  - intro F; inversion F; subst. eauto 10.
  - intros (d & rest & l' & -> & -> & A & F). constructor; assumption.
Qed.
Lemma fits_nil : forall ab zs v l, fits ab zs [] v l <-> v = [] /\ l = [].
Proof. intros; split; [intro F; inversion F; auto|intros (-> & ->); constructor]. Qed.

(** A number of at most [n] digits (at the end of a text or before something that is no digit). *)
Definition short_number (n : nat) (d : str) : Prop := d <> [] /\ Forall digit d /\ (length d <= n)%nat.
Lemma upto_short : forall n d r, digits_upto n d r -> short_number n d.
Proof. intros n d r (N & F & L & _); split; auto. Qed.
Lemma short_upto : forall n d r, short_number n d -> ~ begins digit r -> digits_upto n d r.
Proof. intros n d r (N & F & L) B; repeat split; auto. Qed.

Lemma first_here : forall (q : token -> Prop) t d l, q t -> first_field q ((t, d) :: l) d.
Proof. intros q t d l H. exists [], t, l. auto. Qed.
Lemma first_skip : forall (q : token -> Prop) t d l x, ~ q t -> (first_field q ((t, d) :: l) x <-> first_field q l x).
Proof.
  intros q t d l x N; split.
  - intros (b & u & a & E & K & F). destruct b as [|e b]; cbn in E; inversion E; subst; [contradiction|].
    exists b, u, a. inversion F; subst. auto.
  - intros (b & u & a & -> & K & F). exists ((t, d) :: b), u, a. repeat split; auto.
Qed.
Lemma first_only : forall (q : token -> Prop) t d l x, q t -> first_field q ((t, d) :: l) x -> x = d.
Proof.
  intros q t d l x K (b & u & a & E & Ku & F). destruct b as [|e b]; cbn in E; inversion E; subst; [reflexivity|].
  inversion F; subst. contradiction.
Qed.
Lemma first_nil : forall (q : token -> Prop) x, ~ first_field q [] x.
Proof. intros q x (b & t & a & E & _). destruct b; discriminate. Qed.
Ltac kind := unfold a_day, a_month, a_year; first [ eauto; fail | intros (? & ?); discriminate | discriminate | idtac ].

(** The default format of dates: a year of up to four digits, a month and a day of up to two, and the day exists. *)
Theorem C95_default_date : forall ab zs v, validate_datetime ab zs v (S_ "yyyy-MM-dd") = Ok tt <->
  exists y m d, v = y ++ S_ "-" ++ m ++ S_ "-" ++ d /\
    short_number 4 y /\ short_number 2 m /\ short_number 2 d /\
    exists_day (mkDate (Z.of_N (value y)) (Z.of_N (value m)) (Z.of_N (value d))) = true.
Proof.
  intros ab zs v. rewrite C95_accepted.
  assert (P : parse_pattern (S_ "yyyy-MM-dd") = Some [Year 4; Literal (S_ "-"); Month 2; Literal (S_ "-"); DayInMonth]) by (vm_compute; reflexivity).
  rewrite (follows_tokens ab zs v _ _ P). clear P. unfold exists_day. cbn [d_year d_month d_day]. split.
  - intros (l & F & D & Y).
    apply fits_cons in F as (y & r1 & l1 & -> & -> & Ay & F). apply fits_cons in F as (h1 & r2 & l2 & -> & -> & A1 & F).
    apply fits_cons in F as (m & r3 & l3 & -> & -> & Am & F). apply fits_cons in F as (h2 & r4 & l4 & -> & -> & A2 & F).
    apply fits_cons in F as (d & r5 & l5 & -> & -> & Ad & F). apply fits_nil in F as (-> & ->). cbn in A1, A2, Am, Ay, Ad. subst h1 h2.
    destruct Am as (Am & Bm). destruct Ad as (Ad & Bd). rewrite app_nil_r in *. exists y, m, d.
    pose proof (upto_short _ _ _ Am) as Sm. pose proof (upto_short _ _ _ Ad) as Sd. pose proof (upto_short _ _ _ Ay) as Sy.
    repeat (match goal with |- _ /\ _ => split end); auto.
    assert (Dd := D d m (Z.of_N (value m))). rewrite !andb_true_iff, !Z.leb_le. repeat split; try lia.
    assert (K : (forall y0, first_field a_year [(Year 4, y); (Literal (S_ "-"), S_ "-"); (Month 2, m); (Literal (S_ "-"), S_ "-"); (DayInMonth, d)] y0 ->
      (Z.of_N (value d) <= month_length (Z.of_N (value y0)) (Z.of_N (value m)))%Z)).
    { apply Dd.
      - do 4 (apply first_skip; [kind|]). apply first_here; reflexivity.
      - do 2 (apply first_skip; [kind|]). apply first_here; eexists; reflexivity.
      - right. destruct Sm as (S1 & S2 & _). auto. }
    apply K. apply first_here; eexists; reflexivity.
  - intros (y & m & d & -> & Sy & Sm & Sd & E). rewrite !andb_true_iff, !Z.leb_le in E. destruct E as (((E1 & E2) & E3) & E4).
    exists [(Year 4, y); (Literal (S_ "-"), S_ "-"); (Month 2, m); (Literal (S_ "-"), S_ "-"); (DayInMonth, d)].
    pose proof Sy as (_ & Fy & Ly). pose proof (value_bound y Fy) as By.
    assert (By' : 10 ^ N.of_nat (length y) <= 10 ^ 4) by (apply N.pow_le_mono_r; lia).
    change (10 ^ 4) with 10000 in By'.
    split; [|split].
    + rewrite <- (app_nil_r d) at 1. apply fits_field; [|apply fits_field; [reflexivity|apply fits_field; [|apply fits_field; [reflexivity|apply fits_field; [|apply fits_end]]]]]; cbn.
      * apply short_upto; [exact Sy|]. apply not_digit_char; reflexivity.
      * split; [apply short_upto; [exact Sm|]; apply not_digit_char; reflexivity|lia].
      * split; [apply short_upto; [exact Sd|auto]|]. split; [lia|].
        assert (month_length (Z.of_N (value y)) (Z.of_N (value m)) <= 31)%Z; [|lia].
        unfold month_length. repeat match goal with |- context [if ?b then _ else _] => destruct b end; lia.
    + intros d' m' k Fd Fm Mk.
      do 4 (apply first_skip in Fd; [|kind]). apply first_only in Fd; [|reflexivity]. subst d'.
      do 2 (apply first_skip in Fm; [|kind]). apply first_only in Fm; [|eexists; reflexivity]. subst m'.
      assert (k = Z.of_N (value m)).
      { destruct Sm as (N1 & F1 & L1). destruct (month_shape_value ab zs 2 m []) as (k0 & _ & _ & U).
        - cbn. split; [apply short_upto; [repeat split; auto|auto]|lia].
        - rewrite (U k Mk). symmetry. apply U. right; auto. }
      subst k. split.
      * intros y' Fy'. apply first_only in Fy'; [|eexists; reflexivity]. subst y'. exact E4.
      * intro NY. exfalso. apply (NY y). apply first_here; eexists; reflexivity.
    + intros d' y' _ Fy'. apply first_only in Fy'; [|eexists; reflexivity]. subst y'. lia.
Qed.
Theorem C95_default_time : forall ab zs v, validate_datetime ab zs v (S_ "HH:mm:ss") = Ok tt <->
  exists h m s, v = h ++ S_ ":" ++ m ++ S_ ":" ++ s /\
    short_number 2 h /\ short_number 2 m /\ short_number 2 s /\ value h <= 23 /\ value m <= 59 /\ value s <= 60.
Proof.
  intros ab zs v. rewrite C95_accepted.
  assert (P : parse_pattern (S_ "HH:mm:ss") = Some [Hour24ZeroBased; Literal (S_ ":"); Minute; Literal (S_ ":"); Second]) by (vm_compute; reflexivity).
  rewrite (follows_tokens ab zs v _ _ P). clear P. split.
  - intros (l & F & _).
    apply fits_cons in F as (h & r1 & l1 & -> & -> & (Ah & Bh) & F). apply fits_cons in F as (h1 & r2 & l2 & -> & -> & A1 & F).
    apply fits_cons in F as (m & r3 & l3 & -> & -> & (Am & Bm) & F). apply fits_cons in F as (h2 & r4 & l4 & -> & -> & A2 & F).
    apply fits_cons in F as (s & r5 & l5 & -> & -> & (As & Bs) & F). apply fits_nil in F as (-> & ->). cbn in A1, A2. subst h1 h2.
    rewrite app_nil_r in *. exists h, m, s.
    pose proof (upto_short _ _ _ Ah). pose proof (upto_short _ _ _ Am). pose proof (upto_short _ _ _ As).
    repeat (match goal with |- _ /\ _ => split end); auto; lia.
  - intros (h & m & s & -> & Sh & Sm & Ss & Bh & Bm & Bs).
    exists [(Hour24ZeroBased, h); (Literal (S_ ":"), S_ ":"); (Minute, m); (Literal (S_ ":"), S_ ":"); (Second, s)].
    split; [|split].
    + rewrite <- (app_nil_r s) at 1. apply fits_field; [|apply fits_field; [reflexivity|apply fits_field; [|apply fits_field; [reflexivity|apply fits_field; [|apply fits_end]]]]]; cbn.
      * split; [apply short_upto; [exact Sh|]; apply not_digit_char; reflexivity|lia].
      * split; [apply short_upto; [exact Sm|]; apply not_digit_char; reflexivity|lia].
      * split; [apply short_upto; [exact Ss|auto]|lia].
    + intros d' m' k Fd. exfalso. do 5 (apply first_skip in Fd; [|kind]). exact (first_nil _ _ Fd).
    + intros d' m' Fd. exfalso. do 5 (apply first_skip in Fd; [|kind]). exact (first_nil _ _ Fd).
Qed.

(** * Consequences *)
(** No day of the year beyond 356 is accepted, and no offset of twelve hours and more: whatever stands in front. *)
Theorem C95_day_of_year : forall ab zs d, Forall digit d -> 356 < value d -> validate_datetime ab zs d (S_ "D") <> Ok tt.
Proof.
  intros ab zs d F B H. apply C95_accepted, (follows_tokens ab zs d (S_ "D") [DayInYear] eq_refl) in H as (l & Fl & _).
  apply fits_cons in Fl as (x & r & l' & -> & -> & (_ & A) & Fl). apply fits_nil in Fl as (-> & ->). rewrite app_nil_r in B. lia.
Qed.
Theorem C95_offset_hours : forall ab zs sg h m, (sg = 43 \/ sg = 45) -> short_number 2 h -> 12 <= value h ->
  validate_datetime ab zs (sg :: h ++ S_ ":" ++ m) (S_ "XXX") <> Ok tt.
Proof.
  intros ab zs sg h m Hs Sh B H. apply C95_accepted, (follows_tokens ab zs _ (S_ "XXX") [TimezoneOffsetXZZero 3] eq_refl) in H as (l & Fl & _).
  apply fits_cons in Fl as (x & r & l' & E & -> & A & Fl). apply fits_nil in Fl as (-> & ->). rewrite app_nil_r in E. subst x.
  destruct A as [A|A]; [unfold exactly in A; inversion A; destruct Hs; congruence|].
  destruct A as (s0 & y & E & (N0 & F0 & _) & A). destruct A as (h' & y2 & -> & ((N1 & F1 & L1 & M1) & B1) & A).
  destruct A as (c & y3 & -> & -> & A).
  assert (E0 : s0 = [sg]).
  { destruct s0 as [|a [|b s0]]; [contradiction|cbn in E; inversion E; subst; reflexivity|exfalso].
    cbn in E. inversion E as [[Ea E']]. destruct Sh as (Nh & Fh & _). destruct h as [|c h]; [contradiction|].
    inversion E'; subst. inversion F0 as [|? ? _ F0']; subst. inversion F0' as [|? ? Hb _]; subst. inversion Fh as [|? ? Hc _]; subst.
    unfold digit in Hc. destruct Hb; subst; lia. }
  subst s0. cbn in E. inversion E as [E'].
  assert (G : forall a b x y, Forall digit a -> Forall digit b -> a ++ 58 :: x = b ++ 58 :: y -> a = b).
  { clear. induction a as [|c a IH]; intros [|d b] x y Fa Fb E; cbn in E; inversion E; subst; auto.
    - inversion Fb as [|? ? K _]; subst. unfold digit in K. lia.
    - inversion Fa as [|? ? K _]; subst. unfold digit in K. lia.
    - f_equal. inversion Fa; inversion Fb; subst. eauto. }
  destruct Sh as (Nh & Fh & Lh). rewrite <- (G h h' _ _ Fh F1 E') in B1. lia.
Qed.
(** The 29th of February is refused where the format has no year. *)
Theorem C95_leap_day : forall ab zs, validate_datetime ab zs (S_ "02-29") (S_ "MM-dd") = Err tt.
Proof. intros; vm_compute; reflexivity. Qed.
(** A zone such as America/Los_Angeles is never accepted: the underscore ends the name. *)
Theorem C95_zone_names : forall ab zs v n, In 95 v -> (n = 1 \/ n = 2)%nat -> validate_datetime ab zs v (repeat 86 n) <> Ok tt.
Proof.
  intros ab zs v n I Hn H. apply C95_accepted in H.
  assert (P : parse_pattern (repeat 86 n) = Some [TimezoneId n]) by (destruct Hn; subst; reflexivity).
  apply (follows_tokens ab zs _ _ _ P) in H as (l & Fl & _).
  apply fits_cons in Fl as (x & r & l' & -> & -> & (A & _) & Fl). apply fits_nil in Fl as (-> & ->). rewrite app_nil_r in I.
  destruct A as (a & y & -> & (_ & Fa & _) & (b & z & -> & -> & (_ & Fz & _))).
  assert (K : forall q, Forall letter_or_digit q -> ~ In 95 q).
  { intros q Fq Iq. rewrite Forall_forall in Fq. specialize (Fq 95 Iq). unfold letter_or_digit, digit in Fq. lia. }
  apply in_app_or in I as [I|I]; [exact (K a Fa I)|]. apply in_app_or in I as [I|I]; [cbn in I; destruct I as [I|[]]; discriminate|exact (K z Fz I)].
Qed.
(** Two quotes in a quoted text are one; a text without quotes beside each other stands for itself. *)
Lemma squeeze_same : forall x b, (forall a c, x <> a ++ 39 :: 39 :: c) -> (b = true -> ~ begins a_quote x) -> squeeze b x = x.
Proof.
  induction x as [|c x IH]; intros b H B; [reflexivity|]. cbn. destruct (N.eqb_spec c 39) as [->|Hc].
  - destruct b; [exfalso; apply B; reflexivity|]. f_equal. apply IH.
    + intros a d E. apply (H (39 :: a) d). cbn. congruence.
    + intros _ Q. destruct x as [|d x]; [exact Q|]. cbn in Q. unfold a_quote in Q. subst d. exact (H [] x eq_refl).
  - f_equal. apply IH; [|discriminate]. intros a d E. apply (H (c :: a) d). cbn. congruence.
Qed.
Theorem C95_quoted : forall x, x <> [] -> (forall a c, x <> a ++ 39 :: 39 :: c) ->
  parse_pattern (S_ "'" ++ escaped x ++ S_ "'") = Some [Literal x].
Proof.
  intros x N H. apply parse_pattern_spec. split; [discriminate|].
  rewrite <- (squeeze_same x false H) at 2; [|discriminate]. rewrite <- (app_nil_r (S_ "'")) at 2.
  apply writes_quoted; [exact N|auto|constructor].
Qed.
Theorem C95_quotes_squeezed : parse_pattern (S_ "'a''''b'") = Some [Literal (S_ "a'b")].
Proof. vm_compute; reflexivity. Qed.
(** A year of five digits beside a day ends the program. *)
Example C95_example_panic : validate_datetime (fun _ => false) (fun _ => false) (S_ "99999-01-01") (S_ "yyyyy-MM-dd") = Panic.
Proof. vm_compute; reflexivity. Qed.
Example C95_example : validate_datetime (fun a => str_eqb a (S_ "PDT")) (fun _ => false)
  (S_ "2001.07.04 AD at 12:08:56 PDT") (S_ "yyyy.MM.dd G 'at' HH:mm:ss z") = Ok tt.
Proof. vm_compute; reflexivity. Qed.
Example C95_example_follows : follows (fun _ => true) (fun _ => true) (S_ "Wed, Jul 4, '01") (S_ "EEE, MMM d, ''yy").
Proof. apply C95_accepted. vm_compute; reflexivity. Qed.
Example C95_example_refused : validate_datetime (fun _ => true) (fun _ => true) (S_ "2023-02-29") (S_ "yyyy-MM-dd") = Err tt
  /\ validate_datetime (fun _ => true) (fun _ => true) (S_ "2024-02-29") (S_ "yyyy-MM-dd") = Ok tt.
Proof. split; vm_compute; reflexivity. Qed.
