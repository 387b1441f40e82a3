(** Lemmas on the parsers of TimeFormat.v: each field is exactly its shape. *)
From Coq Require Import Ascii String List Arith NArith ZArith Lia Bool.
From Verif Require Import Base Text Calendar TimeFormat SpecTimeFormat.
Import ListNotations.
Open Scope N_scope.
Local Opaque show_N.

Lemma begins_not : forall (p : N -> Prop) c s, ~ begins p (c :: s) -> ~ p c. Proof. auto. Qed.
Lemma digit_iff : forall c, is_digit c = true <-> digit c.
Proof. intro c; unfold is_digit, digit; rewrite andb_true_iff, !N.leb_le; tauto. Qed.
Lemma digits_iff : forall d, all_digits d = true <-> Forall digit d.
Proof. intro d; unfold all_digits; rewrite forallb_forall, Forall_forall; split; intros H x Hx; apply digit_iff; auto. Qed.
Lemma value_from : forall d a, fold_left (fun a c => 10 * a + (c - 48)) d a = dec_value d a.
Proof. induction d as [|c d IH]; intro a; cbn [fold_left dec_value]; [reflexivity|]. rewrite IH. f_equal. lia. Qed.
Lemma value_dec : forall d, value d = dec_value d 0.
Proof. intro d; apply value_from. Qed.
Lemma value_bound : forall d, Forall digit d -> value d < 10 ^ N.of_nat (length d).
Proof.
  intros d H; rewrite value_dec.
  assert (G : forall d a, Forall digit d -> dec_value d a < (a + 1) * 10 ^ N.of_nat (length d)).
  { clear; intros d; induction d as [|c d IH]; intros a F; [simpl; lia|].
    cbn [dec_value length]. inversion F as [|c' d' Hc Hd]; subst. specialize (IH (a * 10 + (c - 48)) Hd).
    rewrite Nat2N.inj_succ, N.pow_succ_r'. unfold digit in Hc.
    set (P := 10 ^ N.of_nat (length d)) in *; clearbody P.
    assert ((a * 10 + (c - 48) + 1) * P <= ((a + 1) * 10) * P) by (apply N.mul_le_mono_r; lia). nia. }
  specialize (G d 0 H). lia.
Qed.

(** * The parsers of nom *)
Definition parses (p : str -> option (str * str)) (a : shape) : Prop :=
  forall s d r, p s = Some (d, r) <-> s = d ++ r /\ a d r.

Lemma take_upto_spec : forall n p s d r, take_upto n p s = (d, r) <->
  s = d ++ r /\ forallb p d = true /\ (length d <= n)%nat /\ (length d = n \/ ~ begins (fun c => p c = true) r).
Proof.
  induction n as [|n IH]; intros p s d r.
  - simpl. split.
    + intros [= <- <-]. simpl. repeat split; auto.
    + intros (-> & _ & L & _). destruct d; [reflexivity|simpl in L; lia].
  - destruct s as [|c s]; simpl.
    + split.
      * intros [= <- <-]. simpl. repeat split; auto; lia.
      * intros (E & _). symmetry in E; apply app_eq_nil in E as (-> & ->). reflexivity.
    + destruct (p c) eqn:P.
      * destruct (take_upto n p s) as [d' r'] eqn:T. cbn [fst snd]. split.
        -- intros [= <- <-]. apply IH in T as (-> & F & L & M). cbn. rewrite P. repeat split; auto; [lia|].
           destruct M as [M|M]; [left; lia|right; exact M].
        -- intros (E & F & L & M). destruct d as [|c' d].
           ++ simpl in E; subst r. destruct M as [M|M]; [simpl in M; discriminate|]. exfalso; apply M; exact P.
           ++ inversion E; subst. simpl in F; apply andb_true_iff in F as (_ & F). simpl in L, M.
              assert (T' : take_upto n p (d ++ r) = (d, r)).
              { apply IH. repeat split; auto; [lia|]. destruct M as [M|M]; [left; lia|right; exact M]. }
              rewrite T in T'; inversion T'; subst. reflexivity.
      * split.
        -- intros [= <- <-]. cbn. repeat split; auto; [lia|]. right; intro; congruence.
        -- intros (E & F & L & M). destruct d as [|c' d]; [simpl in E; subst r; reflexivity|].
           inversion E; subst. simpl in F. rewrite P in F; discriminate.
Qed.
Lemma take_run_spec : forall p s d r, take_run p s = (d, r) <->
  s = d ++ r /\ forallb p d = true /\ ~ begins (fun c => p c = true) r.
Proof.
  induction s as [|c s IH]; intros d r; simpl.
  - split.
    + intros [= <- <-]. simpl. auto.
    + intros (E & _). symmetry in E; apply app_eq_nil in E as (-> & ->). reflexivity.
  - destruct (p c) eqn:P.
    + destruct (take_run p s) as [d' r'] eqn:T. cbn [fst snd]. split.
      * intros [= <- <-]. destruct (proj1 (IH d' r') eq_refl) as (-> & F & M). cbn. rewrite P. auto.
      * intros (E & F & M). destruct d as [|c' d].
        -- simpl in E; subst r. exfalso; apply M; exact P.
        -- inversion E; subst. simpl in F; apply andb_true_iff in F as (_ & F).
           assert (T' : (d', r') = (d, r)) by (apply IH; auto). inversion T'; subst; reflexivity.
    + split.
      * intros [= <- <-]. cbn. repeat split; auto. intro; congruence.
      * intros (E & F & M). destruct d as [|c' d]; [simpl in E; subst r; reflexivity|].
        inversion E; subst. simpl in F. rewrite P in F; discriminate.
Qed.
Lemma run1_spec : forall p, parses (run1 p) (fun d r => d <> [] /\ forallb p d = true /\ ~ begins (fun c => p c = true) r).
Proof.
  intros p s d r; unfold run1. destruct (take_run p s) as [x y] eqn:T. split.
  - destruct x as [|c x]; [discriminate|]. intros [= <- <-]. apply take_run_spec in T as (-> & F & M).
    repeat split; auto. discriminate.
  - intros (E & D & F & M). assert (T' : take_run p s = (d, r)) by (apply take_run_spec; auto).
    rewrite T in T'; inversion T'; subst. destruct d; [contradiction|reflexivity].
Qed.
Lemma tag_by_spec : forall same t s d r, tag_by same t s = Some (d, r) <-> s = d ++ r /\ Forall2 (fun a b => same a b = true) t d.
Proof.
  induction t as [|a t IH]; intros s d r; simpl.
  - split.
    + intros [= <- <-]. auto.
    + intros (-> & F). inversion F; subst. reflexivity.
  - destruct s as [|b s].
    + split; [discriminate|]. intros (E & F). inversion F; subst. discriminate.
    + destruct (same a b) eqn:Sm.
      * destruct (tag_by same t s) as [[x y]|] eqn:T; simpl.
        -- apply IH in T as (-> & F). split.
           ++ intros [= <- <-]. split; auto.
           ++ intros (E & F'). inversion F' as [|a' b' t' d' Hab Ft]; subst. inversion E; subst.
              assert (T' : tag_by same t (d' ++ r) = Some (d', r)) by (apply IH; auto).
              assert (T2 : tag_by same t (x ++ y) = Some (x, y)) by (apply IH; auto).
              match goal with H : x ++ y = d' ++ r |- _ => rewrite H in T2 end. rewrite T2 in T'. inversion T'; subst. reflexivity.
        -- split; [discriminate|]. intros (E & F'). inversion F' as [|a' b' t' d' Hab Ft]; subst. inversion E; subst.
           assert (T' : tag_by same t (d' ++ r) = Some (d', r)) by (apply IH; auto). congruence.
      * split; [discriminate|]. intros (E & F'). inversion F' as [|a' b' t' d' Hab Ft]; subst. inversion E; subst. congruence.
Qed.
Lemma tag_spec : forall t, parses (tag t) (fun d _ => d = t).
Proof.
  intros t s d r; unfold tag; rewrite tag_by_spec. split; intros (E & F); split; auto.
  - clear E. induction F as [|a b l l' H F IH]; [reflexivity|]. apply N.eqb_eq in H; subst; reflexivity.
  - subst d. clear E. induction t; constructor; auto. apply N.eqb_refl.
Qed.
Lemma tag_no_case_spec : forall t, parses (tag_no_case t) (fun d _ => ascii_lower d = ascii_lower t).
Proof.
  intros t s d r; unfold tag_no_case; rewrite tag_by_spec. split; intros (E & F); split; auto.
  - clear E. induction F as [|a b l l' H F IH]; [reflexivity|]. apply N.eqb_eq in H; cbn. rewrite H; f_equal; exact IH.
  - clear E. revert d F; induction t as [|a t IH]; intros [|b d] F; try discriminate; constructor.
    + cbn in F. inversion F as [[H0 H1]]. rewrite H0. apply N.eqb_refl.
    + apply IH. cbn in F. inversion F as [[H0 H1]]. exact H1.
Qed.
(** No word begins another one. *)
Fixpoint prefix (a b : str) : bool :=
  match a, b with [], _ => true | x :: a', y :: b' => (x =? y) && prefix a' b' | _, [] => false end.
Definition prefix_free (l : list string) : bool :=
  forallb (fun a => forallb (fun b => implb (prefix (ascii_lower (S_ a)) (ascii_lower (S_ b))) (String.eqb a b)) l) l.
Lemma prefix_app : forall a b x y, a ++ x = b ++ y -> prefix a b = true \/ prefix b a = true.
Proof.
  induction a as [|c a IH]; intros [|d b] x y E; simpl; auto.
  inversion E; subst. rewrite N.eqb_refl. simpl. eauto.
Qed.
Lemma parses_words : forall l, prefix_free l = true ->
  parses (fun s => first_of (fun t => tag_no_case t s) (map S_ l)) (word l).
Proof.
  intros l PF.
  assert (U : forall a b x y x' y', In a l -> In b l -> x ++ y = x' ++ y' ->
    ascii_lower x = ascii_lower (S_ a) -> ascii_lower x' = ascii_lower (S_ b) -> x = x').
  { intros a b x y x' y' Ia Ib E La Lb.
    assert (K : forall u v, In u l -> In v l -> prefix (ascii_lower (S_ u)) (ascii_lower (S_ v)) = true -> u = v).
    { intros u v Iu Iv P. unfold prefix_free in PF. rewrite forallb_forall in PF. specialize (PF u Iu).
      rewrite forallb_forall in PF. specialize (PF v Iv). rewrite P in PF. simpl in PF. apply String.eqb_eq in PF; exact PF. }
    assert (ab : a = b).
    { assert (Elow : ascii_lower x ++ ascii_lower y = ascii_lower x' ++ ascii_lower y') by (unfold ascii_lower; rewrite <- !map_app; rewrite E; reflexivity).
      rewrite La, Lb in Elow. apply prefix_app in Elow as [P|P]; [exact (K a b Ia Ib P)|symmetry; exact (K b a Ib Ia P)]. }
    subst b. assert (L : length x = length x') by (rewrite <- (map_length Json.ascii_low x), <- (map_length Json.ascii_low x'); unfold ascii_lower in La, Lb; rewrite La, Lb; reflexivity).
    clear - E L. revert x' E L; induction x as [|c x IH]; intros [|c' x'] E L; simpl in *; try lia; auto.
    inversion E; subst. f_equal. apply IH; auto. }
  intros s d r. split.
  - intro H. assert (G : exists a, In a l /\ tag_no_case (S_ a) s = Some (d, r)).
    { clear - H. induction l as [|a l IH]; simpl in *; [discriminate|].
      destruct (tag_no_case (S_ a) s) eqn:T; [inversion H; subst; eauto|]. destruct (IH H) as (b & I & Hb). eauto. }
    destruct G as (a & I & T). apply tag_no_case_spec in T as (-> & L). split; [reflexivity|]. exists a; auto.
  - intros (-> & a & Ia & La).
    assert (G : exists b x y, In b l /\ first_of (fun t => tag_no_case t (d ++ r)) (map S_ l) = Some (x, y) /\ tag_no_case (S_ b) (d ++ r) = Some (x, y)).
    { clear PF U. induction l as [|b l IH]; [destruct Ia|]. simpl.
      destruct (tag_no_case (S_ b) (d ++ r)) as [[x y]|] eqn:T; [exists b, x, y; auto|].
      destruct Ia as [<-|Ia].
      - exfalso. assert (T' : tag_no_case (S_ b) (d ++ r) = Some (d, r)) by (apply tag_no_case_spec; auto). congruence.
      - destruct (IH Ia) as (b' & x & y & I & F & T'). exists b', x, y; auto. }
    destruct G as (b & x & y & Ib & -> & T). apply tag_no_case_spec in T as (E & Lb).
    assert (Ex : d = x) by exact (U a b d r x y Ia Ib E La Lb). subst x. apply app_inv_head in E. congruence.
Qed.

(** * Combinations *)
Lemma parses_then : forall p q a b, parses p a -> parses q b -> parses (then_ p q) (a ;; b).
Proof.
  intros p q a b P Q s d r; unfold then_, seq. split.
  - destruct (p s) as [[x s1]|] eqn:Ep; [|discriminate]. destruct (q s1) as [[y s2]|] eqn:Eq; [|discriminate].
    intros [= <- <-]. apply P in Ep as (-> & A). apply Q in Eq as (-> & B). rewrite app_assoc. split; [reflexivity|].
    exists x, y; auto.
  - intros (-> & x & y & -> & A & B).
    assert (Ep : p ((x ++ y) ++ r) = Some (x, y ++ r)) by (apply P; rewrite app_assoc; auto).
    assert (Eq : q (y ++ r) = Some (y, r)) by (apply Q; auto). rewrite Ep, Eq. reflexivity.
Qed.
Lemma parses_none : forall p a, parses p a -> forall s, p s = None <-> (forall x y, s = x ++ y -> ~ a x y).
Proof.
  intros p a P s; split.
  - intros N x y E A. assert (p s = Some (x, y)) by (apply P; auto). congruence.
  - intros H. destruct (p s) as [[x y]|] eqn:E; [|reflexivity]. apply P in E as (E & A). exfalso; exact (H x y E A).
Qed.
Lemma parses_otherwise : forall p q a b, parses p a -> parses q b ->
  parses (fun s => match p s with Some r => Some r | None => q s end) (otherwise a b).
Proof.
  intros p q a b P Q s d r; unfold otherwise. destruct (p s) as [[x y]|] eqn:E.
  - apply P in E as (-> & A). split.
    + intros [= <- <-]. auto.
    + intros (E & [A'|(_ & N)]).
      * assert (p (x ++ y) = Some (x, y)) by (apply P; auto). assert (p (x ++ y) = Some (d, r)) by (apply P; auto). congruence.
      * exfalso. exact (N x y (eq_sym E) A).
  - pose proof (proj1 (parses_none p a P s) E) as N. rewrite (Q s d r). split.
    + intros (-> & B). split; auto.
    + intros (-> & [A|(B & _)]); [exfalso; exact (N d r eq_refl A)|auto].
Qed.
Lemma parses_nothing : parses (fun s => Some ([], s)) nothing.
Proof. intros s d r; unfold nothing; split; [intros [= <- <-]; auto|intros (-> & ->); reflexivity]. Qed.
Lemma parses_opt : forall p a, parses p a -> parses (opt p) (maybe a).
Proof. intros p a P. exact (parses_otherwise p _ a nothing P parses_nothing). Qed.
Lemma parses_same : forall p a b, (forall d r, a d r <-> b d r) -> parses p a -> parses p b.
Proof. intros p a b H P s d r; rewrite (P s d r), H; tauto. Qed.
(** Two that exclude each other. *)
Lemma otherwise_either : forall a b : shape, (forall x y x' y', x ++ y = x' ++ y' -> a x y -> b x' y' -> False) ->
  forall d r, otherwise a b d r <-> either a b d r.
Proof.
  intros a b H d r; unfold otherwise, either; split; [tauto|]. intros [A|B]; [auto|right; split; [exact B|]].
  intros x y E A. exact (H x y d r (eq_sym E) A B).
Qed.

Lemma not_begins_iff : forall (p q : N -> Prop), (forall c, p c <-> q c) -> forall s, ~ begins p s <-> ~ begins q s.
Proof. intros p q H [|c s]; simpl; [tauto|]. rewrite H; tauto. Qed.
Lemma forallb_Forall : forall (p : N -> bool) (q : N -> Prop), (forall c, p c = true <-> q c) -> forall d, forallb p d = true <-> Forall q d.
Proof. intros p q H d. rewrite forallb_forall, Forall_forall. split; intros G x I; apply H; auto. Qed.

Lemma parses_digits : forall n, parses (year n) (digits_upto n).
Proof.
  intros n s d r; unfold year, digits_upto. destruct (take_upto n is_digit s) as [x y] eqn:T. split.
  - destruct x as [|c x]; [discriminate|]. intros [= <- <-]. apply take_upto_spec in T as (-> & F & L & M).
    repeat split; auto; [discriminate|apply digits_iff; exact F|]. destruct M as [M|M]; [auto|right].
    exact (proj1 (not_begins_iff _ _ digit_iff _) M).
  - intros (E & D & F & L & M). assert (T' : take_upto n is_digit s = (d, r)).
    { apply take_upto_spec. repeat split; auto; [apply digits_iff in F; exact F|]. destruct M as [M|M]; [auto|right].
      exact (proj2 (not_begins_iff _ _ digit_iff _) M). }
    rewrite T in T'; inversion T'; subst. destruct d; [contradiction|reflexivity].
Qed.
Lemma parse_usize_value : forall d, d <> [] -> Forall digit d -> (length d <= 19)%nat -> parse_usize d = Some (value d).
Proof.
  intros d D F L. rewrite (parse_usize_digits d D (proj2 (digits_iff d) F)), <- value_dec.
  destruct (N.ltb_spec (value d) two64) as [_|H]; [reflexivity|exfalso].
  pose proof (value_bound d F) as B. assert (10 ^ N.of_nat (length d) <= 10 ^ 19) by (apply N.pow_le_mono_r; lia).
  assert (10 ^ 19 < two64) by (vm_compute; reflexivity). lia.
Qed.
Lemma parses_number : forall n lo hi, (n <= 19)%nat -> parses (number n lo hi) (numeral n lo hi).
Proof.
  intros n lo hi Hn s d r. unfold number, numeral.
  assert (Y : year n s = match take_upto n is_digit s with ([], _) => None | x => Some x end) by reflexivity.
  pose proof (parses_digits n s d r) as P. rewrite Y in P. destruct (take_upto n is_digit s) as [[|c x] y] eqn:T.
  - split; [discriminate|]. intros (E & D & _). destruct P as (_ & P). discriminate (P (conj E D)).
  - assert (Pc : s = (c :: x) ++ y /\ digits_upto n (c :: x) y).
    { apply (parses_digits n s (c :: x) y). unfold year; rewrite T; reflexivity. }
    destruct Pc as (Es & Dx). pose proof Dx as (N0 & Fx & Lx & _).
    rewrite (parse_usize_value (c :: x) N0 Fx ltac:(lia)). split.
    + destruct ((lo <=? value (c :: x)) && (value (c :: x) <=? hi)) eqn:B; [|discriminate].
      intros [= <- <-]. apply andb_true_iff in B as (B1 & B2). apply N.leb_le in B1, B2. auto.
    + intros (E & D & B). destruct P as (_ & P). specialize (P (conj E D)). inversion P; subst.
      destruct B as (B1 & B2). apply N.leb_le in B1, B2. rewrite B1, B2. reflexivity.
Qed.
Lemma parses_digit1 : parses (run1 is_digit) digits_all.
Proof.
  refine (parses_same _ _ _ _ (run1_spec is_digit)). intros d r; unfold digits_all.
  rewrite (forallb_Forall is_digit digit digit_iff), (not_begins_iff (fun c => is_digit c = true) digit digit_iff). tauto.
Qed.
Lemma sign_iff : forall c, (c =? 43) || (c =? 45) = true <-> c = 43 \/ c = 45.
Proof. intro c; rewrite orb_true_iff, !N.eqb_eq; tauto. Qed.
Lemma parses_signs : parses signs sign.
Proof.
  refine (parses_same _ _ _ _ (run1_spec _)). intros d r; unfold sign.
  rewrite (forallb_Forall _ _ sign_iff), (not_begins_iff _ _ sign_iff). tauto.
Qed.
Lemma alnum_iff : forall c, alphanumeric c = true <-> letter_or_digit c.
Proof.
  intro c; unfold alphanumeric, letter_or_digit, ascii_alpha, is_upper, is_lower.
  rewrite !orb_true_iff, !andb_true_iff, !N.leb_le, digit_iff. tauto.
Qed.
Lemma parses_name : parses (run1 alphanumeric) name_part.
Proof.
  refine (parses_same _ _ _ _ (run1_spec _)). intros d r; unfold name_part.
  rewrite (forallb_Forall _ _ alnum_iff), (not_begins_iff _ _ alnum_iff). tauto.
Qed.
Lemma parses_tag : forall t, parses (tag (S_ t)) (exactly t).
Proof. intro t; apply tag_spec. Qed.
Lemma same_prefix : forall (x y x' y' : str), x ++ y = x' ++ y' -> length x = length x' -> x = x' /\ y = y'.
Proof.
  induction x as [|c x IH]; intros y [|c' x'] y' E L; simpl in *; try lia; auto.
  inversion E as [[Hc E']]. destruct (IH y x' y' E' ltac:(lia)) as (-> & ->). auto.
Qed.
Lemma parses_gmt : parses gmt_or_utc gmt.
Proof.
  refine (parses_same _ _ _ (otherwise_either (exactly "GMT") (exactly "UTC") _)
           (parses_otherwise _ (fun s => match tag (S_ "UTC") s with Some r => Some r | None => None end) _ _ (parses_tag "GMT") _)).
  - unfold exactly; intros x y x' y' E -> ->. apply same_prefix in E as (E & _); [discriminate|reflexivity].
  - intros s d r. rewrite <- (parses_tag "UTC" s d r). destruct (tag (S_ "UTC") s); tauto.
Qed.
Lemma parses_hh : parses hour_12_0 hh. Proof. apply parses_number; lia. Qed.
Lemma parses_mm : parses minute mm. Proof. apply parses_number; lia. Qed.
Lemma parses_ss : parses second ss. Proof. apply parses_number; lia. Qed.
Lemma parses_colon : parses colon (exactly ":"). Proof. apply parses_tag. Qed.
Global Hint Resolve parses_then parses_opt parses_signs parses_hh parses_mm parses_ss parses_colon parses_gmt parses_tag : parsers.
Lemma parses_iso : forall n, parses (timezone_long_offset n) (iso_offset n).
Proof.
  intros [|[|[|[|[|n]]]]]; cbn [timezone_long_offset iso_offset]; auto 10 with parsers.
Qed.
Lemma iso_sign : forall n d r, iso_offset n d r -> exists c x, d = c :: x /\ (c = 43 \/ c = 45).
Proof.
  assert (G : forall b d r, (sign ;; b) d r -> exists c x, d = c :: x /\ (c = 43 \/ c = 45)).
  { intros b d r (x & y & -> & (N & F & _) & _). destruct x as [|c x]; [contradiction|]. inversion F; subst. simpl; eauto. }
  intros [|[|[|[|[|n]]]]] d r H; exact (G _ d r H).
Qed.
Lemma parses_iso_z : forall n, parses (timezone_long_offset_with_z n) (either (exactly "Z") (iso_offset n)).
Proof.
  intro n. refine (parses_same _ _ _ (otherwise_either _ _ _) (parses_otherwise _ _ _ _ (parses_tag "Z") (parses_iso n))).
  unfold exactly; intros x y x' y' E -> H. destruct (iso_sign n x' y' H) as (c & z & -> & Hc). inversion E; subst. destruct Hc; discriminate.
Qed.
Lemma parses_zone_offset : forall n, (1 <= n)%nat -> parses (timezone_offset n)
  (if (n <=? 3)%nat then sign ;; hh ;; mm
   else if (n =? 4)%nat then otherwise (gmt ;; sign ;; hh ;; exactly ":" ;; mm) gmt
   else sign ;; hh ;; exactly ":" ;; mm).
Proof.
  intros n Hn; unfold timezone_offset. replace (1 <=? n)%nat with true by (symmetry; apply Nat.leb_le; exact Hn).
  cbn [andb]. destruct (n <=? 3)%nat; [auto 10 with parsers|]. destruct (n =? 4)%nat.
  - apply parses_otherwise; unfold timezone_hour_min; auto 10 with parsers.
  - unfold timezone_hour_min; auto 10 with parsers.
Qed.
Lemma parses_gmt_offset : forall n, (1 <= n)%nat -> parses (timezone_offset_gmt n)
  (if (n <=? 3)%nat then gmt ;; sign ;; hh ;; maybe (exactly ":" ;; mm) else gmt ;; sign ;; hh ;; exactly ":" ;; mm).
Proof.
  intros n Hn; unfold timezone_offset_gmt. replace (1 <=? n)%nat with true by (symmetry; apply Nat.leb_le; exact Hn).
  cbn [andb]. destruct (n <=? 3)%nat; auto 10 with parsers.
Qed.
Lemma upper_iff : forall c, is_upper c = true <-> 65 <= c <= 90.
Proof. intro c; unfold is_upper; rewrite andb_true_iff, !N.leb_le; tauto. Qed.
Lemma parses_zone_name : forall ab n, parses (timezone ab n) (fun d r => (n < 4)%nat /\ zone_name ab d r).
Proof.
  intros ab n s d r; unfold timezone, zone_name. destruct (Nat.ltb_spec n 4) as [L|L]; [|split; [discriminate|lia]].
  destruct (take_upto 4 is_upper s) as [x y] eqn:T. cbn [fst]. split.
  - destruct ((3 <=? length x)%nat && ab x) eqn:B; [|discriminate]. intros [= <- <-].
    apply andb_true_iff in B as (B & A). apply Nat.leb_le in B. apply take_upto_spec in T as (-> & F & K & M).
    apply (forallb_Forall _ _ upper_iff) in F. repeat split; auto.
    destruct M as [M|M]; [auto|]. destruct (Nat.eq_dec (length x) 4) as [e|e]; [auto|right; split; [lia|]].
    exact (proj1 (not_begins_iff _ _ upper_iff _) M).
  - intros (E & _ & F & A & M).
    assert (T' : take_upto 4 is_upper s = (d, r)).
    { apply take_upto_spec. repeat split; auto; [apply (forallb_Forall _ _ upper_iff); exact F|destruct M as [M|(M & _)]; lia|].
      destruct M as [M|(_ & M)]; [auto|right]. exact (proj2 (not_begins_iff _ _ upper_iff _) M). }
    rewrite T in T'; inversion T'; subst. rewrite A.
    replace (3 <=? length d)%nat with true by (symmetry; apply Nat.leb_le; destruct M as [M|(M & _)]; lia). reflexivity.
Qed.
Lemma parses_zone_id : forall zs, parses (timezone_id zs) (zone_id zs).
Proof.
  intros zs s d r; unfold timezone_id, zone_id.
  assert (P : parses (then_ (run1 alphanumeric) (then_ (tag (S_ "/")) (run1 alphanumeric))) (name_part ;; exactly "/" ;; name_part)).
  { apply parses_then; [apply parses_name|]. apply parses_then; [apply parses_tag|apply parses_name]. }
  destruct (then_ _ _ s) as [[x y]|] eqn:T.
  - pose proof (proj1 (P s x y) T) as (Es & A). destruct (zs x) eqn:Z.
    + split; [intros [= <- <-]; auto|]. intros (E & B & _).
      assert (T' : then_ (run1 alphanumeric) (then_ (tag (S_ "/")) (run1 alphanumeric)) s = Some (d, r)) by (apply P; auto). congruence.
    + split; [discriminate|]. intros (E & B & Zd).
      assert (T' : then_ (run1 alphanumeric) (then_ (tag (S_ "/")) (run1 alphanumeric)) s = Some (d, r)) by (apply P; auto). congruence.
  - split; [discriminate|]. intros (E & B & _).
    assert (T' : then_ (run1 alphanumeric) (then_ (tag (S_ "/")) (run1 alphanumeric)) s = Some (d, r)) by (apply P; auto). congruence.
Qed.
