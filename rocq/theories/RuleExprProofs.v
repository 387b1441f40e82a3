(** Lemmas about the lexer and the literals of RuleExpr.v. *)
From Coq Require Import String List Arith NArith ZArith Lia Bool.
From Verif Require Import Base PathExp Json MatchingRules Expr Generators RuleExpr SpecRuleExpr.
Import ListNotations.
Open Scope N_scope.

Lemma is_blank_spec c : is_blank c = true <-> blank c.
Proof.
  unfold is_blank, blank. rewrite !orb_true_iff, !N.eqb_eq. tauto.
Qed.
Lemma is_digit_spec c : is_digit c = true <-> digit c.
Proof. unfold is_digit, digit. rewrite andb_true_iff, !N.leb_le. tauto. Qed.

Lemma skip_blank_split s : exists b, Forall blank b /\ s = b ++ skip_blank s /\
  match skip_blank s with [] => True | c :: _ => is_blank c = false end.
Proof.
  induction s as [|c s (b & B & E & H)]; [exists []; repeat split; constructor|].
  cbn [skip_blank]. destruct (is_blank c) eqn:Hc.
  - exists (c :: b). repeat split; [constructor; [apply is_blank_spec; auto|auto]| |exact H].
    cbn. f_equal. exact E.
  - exists []. repeat split; [constructor|exact Hc].
Qed.
Lemma skip_blank_app b c t : Forall blank b -> is_blank c = false -> skip_blank (b ++ c :: t) = c :: t.
Proof.
  intros B H. induction B as [|x b Hx B IH]; cbn [app skip_blank].
  - rewrite H. reflexivity.
  - apply is_blank_spec in Hx. rewrite Hx. exact IH.
Qed.
Lemma skip_blank_all b : Forall blank b -> skip_blank b = [].
Proof.
  intro B. induction B as [|x b Hx B IH]; cbn; [reflexivity|].
  apply is_blank_spec in Hx. rewrite Hx. exact IH.
Qed.

Lemma span_split p s : let (a, b) := span p s in
  s = a ++ b /\ Forall (fun c => p c = true) a /\ match b with [] => True | c :: _ => p c = false end.
Proof.
  induction s as [|c s IH]; cbn [span]; [repeat split; constructor|].
  destruct (p c) eqn:Hc.
  - destruct (span p s) as [a b]. destruct IH as (-> & F & H). repeat split; [constructor; auto|exact H].
  - repeat split; [constructor|exact Hc].
Qed.
Lemma span_app p a r : Forall (fun c => p c = true) a -> match r with [] => True | c :: _ => p c = false end ->
  span p (a ++ r) = (a, r).
Proof.
  intros F H. induction F as [|c a Hc F IH]; cbn [app span].
  - destruct r as [|c r]; cbn [span]; [reflexivity|]. rewrite H. reflexivity.
  - rewrite Hc, IH. reflexivity.
Qed.

(** * String tokens *)
(** Quotes inside a body come after a backslash ([bs]: one comes before the body). *)
Definition body_ok (bs : bool) (body : str) : Prop :=
  forall a b, body = a ++ 39 :: b -> (a = [] /\ bs = true) \/ ends_in 92 a.
Lemma str_lit_split s : forall bs b r, str_lit bs s = Some (b, r) ->
  s = b ++ r /\ exists body, b = body ++ [39] /\ body_ok bs body.
Proof.
  assert (NE : forall (a b : str), [] = a ++ 39 :: b -> False) by (intros [|? ?] ? ?; discriminate).
  assert (NB : forall bs, body_ok bs []).
  { intros bs a0 b0 E. destruct (NE _ _ E). }
  induction s as [|c s IH]; intros bs b r H; cbn [str_lit] in H; [discriminate|].
  destruct (N.eqb_spec c 39) as [->|Hc].
  - destruct bs.
    + destruct (str_lit false s) as [[b' r']|] eqn:E.
      * injection H as <- <-. destruct (IH _ _ _ E) as (-> & body & -> & BO).
        split; [reflexivity|]. exists (39 :: body). split; [reflexivity|].
        intros [|x a] t Et.
        -- left. auto.
        -- injection Et as <- Et. destruct (BO _ _ Et) as [[_ Z]|[a' ->]]; [discriminate Z|].
           right. exists (39 :: a'). reflexivity.
      * injection H as <- <-. split; [reflexivity|]. exists []. split; [reflexivity|]. apply NB.
    + injection H as <- <-. split; [reflexivity|]. exists []. split; [reflexivity|]. apply NB.
  - destruct (str_lit (c =? 92) s) as [[b' r']|] eqn:E; [|discriminate].
    injection H as <- <-. destruct (IH _ _ _ E) as (-> & body & -> & BO).
    split; [reflexivity|]. exists (c :: body). split; [reflexivity|].
    intros [|x a] t Et.
    + injection Et as -> _. congruence.
    + injection Et as <- Et. destruct (BO _ _ Et) as [[-> Z]|[a' ->]]; right.
      * apply N.eqb_eq in Z. subst. exists []. reflexivity.
      * exists (c :: a'). reflexivity.
Qed.
Lemma str_lit_plain raw r : forall bs, ~ In 39 raw -> (raw = [] -> bs = false) -> ~ ends_in 92 raw ->
  str_lit bs (raw ++ 39 :: r) = Some (raw ++ [39], r).
Proof.
  induction raw as [|c raw IH]; intros bs H Hb He; cbn [app str_lit].
  - rewrite (Hb eq_refl). reflexivity.
  - destruct (N.eqb_spec c 39) as [->|Hc]; [exfalso; apply H; left; reflexivity|].
    rewrite IH; [reflexivity| | |].
    + intro I; apply H; right; exact I.
    + intros ->. apply N.eqb_neq. intros ->. apply He. exists []. reflexivity.
    + intros [a ->]. apply He. exists (c :: a). reflexivity.
Qed.

Lemma drop_quotes_split s : exists q, s = q ++ drop_quotes s /\ Forall (eq 39) q /\
  (forall t, drop_quotes s <> 39 :: t).
Proof.
  induction s as [|c s (q & E & F & H)]; cbn [drop_quotes].
  - exists []. repeat split; [constructor|discriminate].
  - destruct (N.eqb_spec c 39) as [->|Hc].
    + exists (39 :: q). repeat split; [cbn; f_equal; exact E|constructor; auto|exact H].
    + exists []. repeat split; [constructor|]. intros t Et. injection Et as -> _. congruence.
Qed.
Lemma trim_quotes_split s : exists q1 q2, s = q1 ++ trim_quotes s ++ q2 /\ Forall (eq 39) (q1 ++ q2) /\
  (forall t, trim_quotes s <> 39 :: t) /\ ~ ends_in 39 (trim_quotes s).
Proof.
  unfold trim_quotes. destruct (drop_quotes_split s) as (q1 & E1 & F1 & H1).
  set (u := drop_quotes s) in *.
  destruct (drop_quotes_split (rev u)) as (q2 & E2 & F2 & H2).
  set (x := drop_quotes (rev u)) in *.
  assert (Eu : u = rev x ++ rev q2).
  { rewrite <- rev_app_distr, <- E2, rev_involutive. reflexivity. }
  exists q1, (rev q2). repeat split.
  - rewrite E1, Eu. reflexivity.
  - apply Forall_app. split; [exact F1|]. apply Forall_rev, F2.
  - intros t Et. apply (H1 (t ++ rev q2)). rewrite Eu, Et. reflexivity.
  - intros [a Ea]. apply (H2 (rev a)). rewrite <- (rev_involutive x), Ea, rev_app_distr. reflexivity.
Qed.

Lemma str_lit_quoted s b r : str_lit false s = Some (b, r) -> quoted false (39 :: b) (trim_quotes (39 :: b)).
Proof.
  intro H. destruct (str_lit_split _ _ _ _ H) as (_ & body & Eb & BO). unfold quoted.
  destruct (trim_quotes_split (39 :: b)) as (q1 & q2 & E & F & Hh & Ht).
  set (raw := trim_quotes (39 :: b)) in *. clearbody raw. exists q1, q2. split; [exact E|]. split; [exact F|].
  split; [|split; [exact Hh|split; [exact Ht|]]].
  - destruct raw as [|c raw'] eqn:Er.
    + cbn in E. rewrite <- E. rewrite Eb. cbn. rewrite app_length. cbn. lia.
    + destruct q1 as [|a q1].
      * cbn in E. injection E as Ec _. exfalso. apply (Hh raw'). rewrite Ec. reflexivity.
      * destruct (@exists_last _ (c :: raw') ltac:(discriminate)) as (ra & x & Ex).
        destruct q2 as [|y q2]; [|rewrite app_length; cbn; lia].
        exfalso. apply Ht. exists ra. rewrite app_nil_r in E. rewrite Ex in E. rewrite Ex. f_equal.
        assert (E' : (39 :: body) ++ [39] = ((a :: q1) ++ ra) ++ [x]).
        { cbn [app]. rewrite <- app_assoc. cbn [app] in E. rewrite <- Eb. exact E. }
        apply app_inj_tail in E'. destruct E' as [_ <-]. reflexivity.
  - intros a t Er.
    assert (Ha : a <> []) by (intros ->; exact (Hh t Er)).
    assert (Htn : t <> []) by (intros ->; apply Ht; exists a; exact Er).
    destruct q1 as [|c1 q1].
    { exfalso. cbn [app] in E. destruct raw as [|x raw]; [destruct a; discriminate|].
      injection E as <- _. exact (Hh raw eq_refl). }
    (* everything after the quote ends in the closing quote *)
    assert (Ez : exists z, t ++ q2 = z ++ [39]).
    { destruct (@exists_last _ (t ++ q2)) as (z & y & Ey); [destruct t; [congruence|discriminate]|].
      exists z. rewrite Ey. f_equal. f_equal.
      assert (E' : (39 :: body) ++ [39] = ((c1 :: q1) ++ a ++ 39 :: z) ++ [y]).
      { transitivity (39 :: b); [rewrite Eb; reflexivity|]. rewrite E, Er, <- !app_assoc.
        cbn [app]. rewrite Ey. reflexivity. }
      apply app_inj_tail in E'. destruct E' as [_ ->]. reflexivity. }
    destruct Ez as [z Ez].
    assert (E' : (39 :: body) ++ [39] = ((c1 :: q1) ++ a ++ 39 :: z) ++ [39]).
    { transitivity (39 :: b); [rewrite Eb; reflexivity|]. rewrite E, Er, <- !app_assoc.
      cbn [app]. rewrite Ez. reflexivity. }
    apply app_inj_tail in E'. destruct E' as [E' _]. injection E' as _ E'.
    rewrite app_assoc in E'.
    destruct (BO _ _ E') as [[_ Z]|[y Ey]]; [discriminate Z|].
    destruct (@exists_last _ a Ha) as (al & x & Ea).
    exists al. rewrite Ea. f_equal. f_equal.
    rewrite Ea, app_assoc in Ey. apply app_inj_tail in Ey. apply Ey.
Qed.

Lemma trim_quotes_plain raw : ~ In 39 raw -> trim_quotes (39 :: raw ++ [39]) = raw.
Proof.
  intro H.
  assert (D : forall x, ~ In 39 x -> drop_quotes x = x).
  { intros [|c x] Hx; [reflexivity|]. cbn. destruct (N.eqb_spec c 39) as [->|_]; [|reflexivity].
    exfalso; apply Hx; left; reflexivity. }
  unfold trim_quotes. cbn [drop_quotes]. rewrite N.eqb_refl.
  destruct raw as [|c raw].
  - reflexivity.
  - assert (E : drop_quotes ((c :: raw) ++ [39]) = (c :: raw) ++ [39]).
    { cbn. destruct (N.eqb_spec c 39) as [->|_]; [exfalso; apply H; left; reflexivity|reflexivity]. }
    rewrite E, rev_app_distr. cbn [rev app drop_quotes]. rewrite N.eqb_refl.
    rewrite D; [|intro I0; apply H, in_rev; exact I0].
    change (rev raw ++ [c]) with (rev (c :: raw)). apply rev_involutive.
Qed.

(** * Escapes *)
Lemma hex_val_spec c n : hex_val c = Some n <-> hex_char c n.
Proof.
  unfold hex_val, hex_char.
  destruct (is_digit c) eqn:D.
  - apply is_digit_spec in D. unfold digit in D. split.
    + injection 1 as <-. left. lia.
    + intros [[_ ->]|[[A _]|[A _]]]; [reflexivity|lia|lia].
  - assert (D' : ~ (48 <= c <= 57)).
    { intro X. assert (is_digit c = true) by (apply is_digit_spec; exact X). congruence. }
    destruct ((65 <=? c) && (c <=? 70)) eqn:U.
    + apply andb_true_iff in U. rewrite !N.leb_le in U. split.
      * injection 1 as <-. right. left. lia.
      * intros [[A _]|[[A ->]|[A _]]]; [lia| f_equal; lia|lia].
    + apply andb_false_iff in U. rewrite !N.leb_gt in U.
      destruct ((97 <=? c) && (c <=? 102)) eqn:L.
      * apply andb_true_iff in L. rewrite !N.leb_le in L. split.
        -- injection 1 as <-. right. right. lia.
        -- intros [[A _]|[[A _]|[A ->]]]; [lia|lia|f_equal; lia].
      * apply andb_false_iff in L. rewrite !N.leb_gt in L. split; [discriminate|].
        intros [[A _]|[[A _]|[A _]]]; lia.
Qed.
Lemma hex_go_app a b acc : hex_go (a ++ b) acc = match hex_go a acc with Some n => hex_go b n | None => None end.
Proof.
  revert acc. induction a as [|c a IH]; intro acc; cbn; [reflexivity|].
  destruct (hex_val c); [apply IH|reflexivity].
Qed.
Lemma hex_go_spec s n : s <> [] -> (hex_go s 0 = Some n <-> hex_digits s n).
Proof.
  revert n. induction s as [|c s IH] using rev_ind; intros n Hne; [congruence|].
  destruct s as [|c0 s].
  - cbn [app hex_go]. destruct (hex_val c) eqn:E.
    + apply hex_val_spec in E. cbn. split.
      * injection 1 as <-. constructor. exact E.
      * intro H. inversion H as [c' n1 Hc Eq|s' c' n1 m Hs Hc Eq1 Eq2]; subst.
        -- apply hex_val_spec in E. apply hex_val_spec in Hc. congruence.
        -- destruct s'; [inversion Hs|]; [destruct s; discriminate|].
           injection Eq1 as _ Eq1. destruct s'; discriminate.
    + split; [discriminate|]. intro H. inversion H as [c' n1 Hc Eq|s' c' n1 m Hs Hc Eq1 Eq2]; subst.
      * apply hex_val_spec in Hc. congruence.
      * destruct s'; [inversion Hs|]; [destruct s; discriminate|].
        injection Eq1 as _ Eq1. destruct s'; discriminate.
  - assert (Hne' : c0 :: s <> []) by discriminate. specialize (fun n => IH n Hne').
    rewrite hex_go_app. split.
    + destruct (hex_go (c0 :: s) 0) as [m|] eqn:E; [|discriminate].
      cbn [hex_go]. destruct (hex_val c) as [d|] eqn:Ed; [|discriminate]. injection 1 as <-.
      constructor; [apply IH; reflexivity|apply hex_val_spec; exact Ed].
    + intro H. inversion H as [c' n1 Hc Eq|s' c' n1 m Hs Hc Eq1 Eq2]; subst.
      * destruct s; discriminate.
      * change (c0 :: s ++ [c]) with ((c0 :: s) ++ [c]) in Eq1. apply app_inj_tail in Eq1. destruct Eq1 as [-> ->].
        apply IH in Hs. rewrite Hs. cbn [hex_go]. apply hex_val_spec in Hc. rewrite Hc. reflexivity.
Qed.
Lemma hex_digits_nonempty s n : hex_digits s n -> s <> [] /\ forall t, s <> 43 :: t.
Proof.
  intro H. induction H as [c n H|s c n m H [IH1 IH2] Hc].
  - split; [discriminate|]. intros t E. injection E as -> _. unfold hex_char in H. lia.
  - split; [destruct s; discriminate|]. intros t E. destruct s as [|x s]; [congruence|].
    injection E as -> _. exact (IH2 s eq_refl).
Qed.
Lemma parse_hex32_spec s n : parse_hex32 s = Some n <-> hex_number s n.
Proof.
  unfold parse_hex32, hex_number.
  assert (K : forall ds, match ds with [] => None | _ :: _ => match hex_go ds 0 with
       | Some n0 => if n0 <? 4294967296 then Some n0 else None | None => None end end = Some n
       <-> (hex_digits ds n /\ n < 4294967296)).
  { intros [|c ds].
    - split; [discriminate|]. intros [H _]. apply hex_digits_nonempty in H. destruct H as [H _]. congruence.
    - rewrite <- hex_go_spec by discriminate. destruct (hex_go (c :: ds) 0) as [m|].
      + destruct (N.ltb_spec m 4294967296) as [L|L]; split.
        * intro E. injection E as <-. auto.
        * intros [E _]. exact E.
        * discriminate.
        * intros [E L']. injection E as <-. lia.
      + split; [discriminate|]. intros [E _]. discriminate. }
  destruct s as [|c s].
  - rewrite (K []). split.
    + intros [A B]. auto.
    + intros [[A|(s' & A & _)] B]; [auto|discriminate].
  - destruct (N.eqb_spec c 43) as [->|Hc].
    + rewrite (K s). split.
      * intros [A B]. split; [right; exists s; auto|exact B].
      * intros [[A|(s' & A & A')] B].
        -- apply hex_digits_nonempty in A. destruct A as [_ A]. destruct (A s eq_refl).
        -- injection A as <-. auto.
    + rewrite (K (c :: s)). split.
      * intros [A B]. auto.
      * intros [[A|(s' & A & A')] B]; [auto|]. injection A as -> _. congruence.
Qed.
Lemma char_or_replacement_spec n x : char_or_replacement n = x <-> char_of n x.
Proof.
  unfold char_or_replacement, char_of, unicode_scalar.
  destruct ((n <? 55296) || ((57344 <=? n) && (n <? 1114112))) eqn:E.
  - rewrite orb_true_iff, andb_true_iff, !N.ltb_lt, N.leb_le in E. split.
    + intros <-. left. split; [lia|reflexivity].
    + intros [[_ ->]|[A _]]; [reflexivity|]. exfalso. apply A. lia.
  - rewrite orb_false_iff, andb_false_iff, !N.ltb_ge, N.leb_gt in E. split.
    + intros <-. right. split; [lia|reflexivity].
    + intros [[A _]|[_ ->]]; [lia|reflexivity].
Qed.
Lemma until_brace_spec s h r : until_brace s = Some (h, r) <-> (s = h ++ 125 :: r /\ ~ In 125 h).
Proof.
  revert h r. induction s as [|c s IH]; intros h r; cbn [until_brace].
  - split; [discriminate|]. intros [E _]. destruct h; discriminate.
  - destruct (N.eqb_spec c 125) as [->|Hc].
    + split.
      * intro E. injection E as <- <-. split; [reflexivity|intros []].
      * intros [E H]. destruct h as [|x h].
        -- injection E as <-. reflexivity.
        -- injection E as <- _. exfalso. apply H. left. reflexivity.
    + destruct (until_brace s) as [[b r']|] eqn:E.
      * destruct (proj1 (IH b r') eq_refl) as [-> Hb]. split.
        -- intro E'. injection E' as <- <-. split; [reflexivity|]. intros [->|I0]; [congruence|auto].
        -- intros [E' H]. destruct h as [|x h]; [injection E' as -> _; congruence|].
           injection E' as <- E'. assert (S1 : Some (b, r') = Some (h, r)).
           { apply IH. split; [exact E'|]. intro I0. apply H. right. exact I0. }
           injection S1 as <- <-. reflexivity.
      * split; [discriminate|]. intros [E' H]. destruct h as [|x h]; [injection E' as -> _; congruence|].
        injection E' as <- E'. assert (S1 : None = Some (h, r)).
        { apply IH. split; [exact E'|]. intro I0. apply H. right. exact I0. }
        discriminate.
Qed.
Lemma until_brace_length s h r : until_brace s = Some (h, r) -> (length r < length s)%nat.
Proof.
  intro H. apply until_brace_spec in H. destruct H as [-> _]. rewrite app_length. cbn. lia.
Qed.

Lemma unescape_sound f s t : unescape f s = Some t -> unescaped s t.
Proof.
  revert s t. induction f as [|f IH]; intros s t H; cbn [unescape] in H; [discriminate|].
  destruct s as [|c s1]; [injection H as <-; constructor|].
  destruct (N.eqb_spec c 92) as [->|Hc].
  2:{ destruct (unescape f s1) as [u|] eqn:E; [|discriminate]. injection H as <-. constructor; auto. }
  destruct s1 as [|c2 s2]; [injection H as <-; apply un_last|].
  unfold simple_escape in H.
  destruct (N.eqb_spec c2 92) as [->|H92].
  { destruct (unescape f s2) as [u|] eqn:E; [|discriminate]. injection H as <-. apply un_backslash; auto. }
  destruct (N.eqb_spec c2 98) as [->|H98].
  { destruct (unescape f s2) as [u|] eqn:E; [|discriminate]. injection H as <-. apply un_b; auto. }
  destruct (N.eqb_spec c2 102) as [->|H102].
  { destruct (unescape f s2) as [u|] eqn:E; [|discriminate]. injection H as <-. apply un_f; auto. }
  destruct (N.eqb_spec c2 110) as [->|H110].
  { destruct (unescape f s2) as [u|] eqn:E; [|discriminate]. injection H as <-. apply un_n; auto. }
  destruct (N.eqb_spec c2 114) as [->|H114].
  { destruct (unescape f s2) as [u|] eqn:E; [|discriminate]. injection H as <-. apply un_r; auto. }
  destruct (N.eqb_spec c2 116) as [->|H116].
  { destruct (unescape f s2) as [u|] eqn:E; [|discriminate]. injection H as <-. apply un_t; auto. }
  destruct (N.eqb_spec c2 117) as [->|H117].
  - destruct s2 as [|c3 s3]; [discriminate|].
    destruct (N.eqb_spec c3 123) as [->|H123].
    + destruct (until_brace s3) as [[b r]|] eqn:Eb; [|discriminate].
      destruct (parse_hex32 b) as [n|] eqn:En; [|discriminate].
      destruct (unescape f r) as [u|] eqn:E; [|discriminate]. injection H as <-.
      apply until_brace_spec in Eb. destruct Eb as [-> Hb].
      apply parse_hex32_spec in En. apply un_braces with n; auto. apply char_or_replacement_spec. reflexivity.
    + destruct s3 as [|c4 [|c5 [|c6 s6]]]; try discriminate.
      destruct (parse_hex32 [c3; c4; c5; c6]) as [n|] eqn:En; [|discriminate].
      destruct (unescape f s6) as [u|] eqn:E; [|discriminate]. injection H as <-.
      apply parse_hex32_spec in En. apply un_u4 with n; auto. apply char_or_replacement_spec. reflexivity.
  - destruct (unescape f s2) as [u|] eqn:E; [|discriminate]. injection H as <-.
    apply un_other; [|auto]. cbn. intuition congruence.
Qed.
Lemma unescape_complete s t : unescaped s t -> forall f, (length s < f)%nat -> unescape f s = Some t.
Proof.
  intro H.
  induction H as [|c r t Hc H IH|r t H IH|r t H IH|r t H IH|r t H IH|r t H IH|r t H IH
    |a b c d n x r t Ha Hn Hx H IH|h n x r t Hh Hn Hx H IH|c r t Hc H IH|];
    intros [|f] L; cbn [length] in L; try lia; cbn [unescape].
  - reflexivity.
  - apply N.eqb_neq in Hc. rewrite Hc, IH by lia. reflexivity.
  - rewrite N.eqb_refl. unfold simple_escape. rewrite N.eqb_refl, IH by lia. reflexivity.
  - change (92 =? 92) with true. cbv iota. change (simple_escape 98) with (Some 8). rewrite IH by lia. reflexivity.
  - change (92 =? 92) with true. cbv iota. change (simple_escape 102) with (Some 12). rewrite IH by lia. reflexivity.
  - change (92 =? 92) with true. cbv iota. change (simple_escape 110) with (Some 10). rewrite IH by lia. reflexivity.
  - change (92 =? 92) with true. cbv iota. change (simple_escape 114) with (Some 13). rewrite IH by lia. reflexivity.
  - change (92 =? 92) with true. cbv iota. change (simple_escape 116) with (Some 9). rewrite IH by lia. reflexivity.
  - change (92 =? 92) with true. cbv iota. change (simple_escape 117) with (@None N). change (117 =? 117) with true. cbv iota.
    apply N.eqb_neq in Ha. rewrite Ha. apply parse_hex32_spec in Hn. rewrite Hn.
    apply char_or_replacement_spec in Hx. rewrite Hx, IH by lia. reflexivity.
  - change (92 =? 92) with true. cbv iota. change (simple_escape 117) with (@None N). change (117 =? 117) with true.
    change (123 =? 123) with true. cbv iota.
    assert (Eb : until_brace (h ++ 125 :: r) = Some (h, r)) by (apply until_brace_spec; auto).
    rewrite Eb. apply parse_hex32_spec in Hn. rewrite Hn.
    apply char_or_replacement_spec in Hx. rewrite Hx, IH; [reflexivity|].
    rewrite app_length in L. cbn in L. lia.
  - change (92 =? 92) with true. cbv iota.
    assert (E : simple_escape c = None /\ (c =? 117) = false).
    { unfold simple_escape. cbn in Hc.
      destruct (N.eqb_spec c 92) as [->|?]; [exfalso; apply Hc; auto 10|]. destruct (N.eqb_spec c 98) as [->|?]; [exfalso; apply Hc; auto 10|].
      destruct (N.eqb_spec c 102) as [->|?]; [exfalso; apply Hc; auto 10|]. destruct (N.eqb_spec c 110) as [->|?]; [exfalso; apply Hc; auto 10|].
      destruct (N.eqb_spec c 114) as [->|?]; [exfalso; apply Hc; auto 10|]. destruct (N.eqb_spec c 116) as [->|?]; [exfalso; apply Hc; auto 10|].
      split; [reflexivity|]. apply N.eqb_neq. intros ->. apply Hc; auto 10. }
    destruct E as [-> ->]. rewrite IH by lia. reflexivity.
  - reflexivity.
Qed.
Lemma process_raw_string_spec s t : process_raw_string s = Some t <-> unescaped s t.
Proof.
  split; [apply unescape_sound|]. intro H. apply unescape_complete; [exact H|lia].
Qed.
