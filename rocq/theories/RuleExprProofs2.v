(** The parser of RuleExpr.v accepts only what the (loose) grammar of SpecRuleExpr.v derives. *)
From Coq Require Import String List Arith NArith ZArith Lia Bool.
From Verif Require Import Base PathExp Json MatchingRules Expr Generators RuleExpr SpecRuleExpr RuleExprProofs.
Import ListNotations.
Open Scope N_scope.

Definition letter (c : N) : Prop := ascii_alpha c = true.
Definition tok_ok (k : tok) (w : str) : Prop :=
  match k with
  | TMatching => w = S_ "matching"
  | TNotEmpty => w = S_ "notEmpty"
  | TEachKey => w = S_ "eachKey"
  | TEachValue => w = S_ "eachValue"
  | TAtLeast => w = S_ "atLeast"
  | TAtMost => w = S_ "atMost"
  | TLeft => w = S_ "("
  | TRight => w = S_ ")"
  | TComma => w = S_ ","
  | TString => quoted false w (trim_quotes w)
  | TId => Forall letter w
  | TInt => int_word w
  | TNum n => digits w /\ dec_value w 0 < 18446744073709551616 /\ n = dec_value w 0
  | TDecimal => dec_word true w
  | TDecimalPart => True
  | TBoolean => w = S_ "true" \/ w = S_ "false"
  | TNull => w = S_ "null"
  | TDollar => w = S_ "$"
  | TErr => True
  end.

Lemma digits_of a : Forall (fun c => is_digit c = true) a -> a <> [] -> digits a.
Proof. intros F H. split; [exact H|]. eapply Forall_impl; [|exact F]. intros c. apply is_digit_spec. Qed.

Lemma decimal_lit_sound ds r d r' : Forall (fun c => is_digit c = true) ds -> decimal_lit ds r = Some (d, r') ->
  ds ++ r = d ++ r' /\ exists c f, ds = [c] /\ d = ds ++ 46 :: f /\ digits f.
Proof.
  intros F H. unfold decimal_lit in H. destruct ds as [|x [|y ds]]; try discriminate; [].
  destruct r as [|c r]; [discriminate|].
  destruct (N.eqb_spec c 46) as [->|]; [|discriminate].
  pose proof (span_split is_digit r) as Sp. destruct (span is_digit r) as [fs r2].
  destruct Sp as (-> & Ff & _). destruct fs as [|f fs]; [discriminate|]. injection H as <- <-.
  split; [reflexivity|]. exists x, (f :: fs). split; [reflexivity|]. split; [reflexivity|]. apply digits_of; [exact Ff|discriminate].
Qed.

Lemma one_digit_value c : is_digit c = true -> dec_value [c] 0 < 10.
Proof. intro H. apply is_digit_spec in H. unfold digit in H. cbn [dec_value]. lia. Qed.

Lemma word_tok_ok a : Forall letter a -> tok_ok (word_tok a) a.
Proof.
  intro F. unfold word_tok.
  destruct (str_eqb_spec a (S_ "matching")) as [E|_]; [exact E|].
  destruct (str_eqb_spec a (S_ "notEmpty")) as [E|_]; [exact E|].
  destruct (str_eqb_spec a (S_ "eachKey")) as [E|_]; [exact E|].
  destruct (str_eqb_spec a (S_ "eachValue")) as [E|_]; [exact E|].
  destruct (str_eqb_spec a (S_ "atLeast")) as [E|_]; [exact E|].
  destruct (str_eqb_spec a (S_ "atMost")) as [E|_]; [exact E|].
  destruct (str_eqb_spec a (S_ "true")) as [E|_]; [left; exact E|].
  destruct (str_eqb_spec a (S_ "false")) as [E|_]; [right; exact E|].
  cbn [orb]. destruct (str_eqb_spec a (S_ "null")) as [E|_]; [exact E|]. exact F.
Qed.

Section Sound.
Variable junk : str -> nat.
Variable w : world.

Lemma lex_at_sound c s k a r : lex_at junk (c :: s) c s = (k, a, r) ->
  c :: s = a ++ r /\ a <> [] /\ tok_ok k a.
Proof.
  assert (Er : lex_err junk (c :: s) = (k, a, r) -> c :: s = a ++ r /\ a <> [] /\ tok_ok k a).
  { unfold lex_err. intro H. injection H as <- <- <-. rewrite <- (firstn_skipn (S (junk (c :: s))) (c :: s)) at 1.
    split; [reflexivity|]. split; [discriminate|exact Logic.I]. }
  unfold lex_at.
  destruct (N.eqb_spec c 40) as [->|_]. { intro H; injection H as <- <- <-. repeat split; discriminate. }
  destruct (N.eqb_spec c 41) as [->|_]. { intro H; injection H as <- <- <-. repeat split; discriminate. }
  destruct (N.eqb_spec c 44) as [->|_]. { intro H; injection H as <- <- <-. repeat split; discriminate. }
  destruct (N.eqb_spec c 36) as [->|_]. { intro H; injection H as <- <- <-. repeat split; discriminate. }
  destruct (N.eqb_spec c 39) as [->|_].
  { destruct (str_lit false s) as [[b r0]|] eqn:E; [|exact Er].
    intro H; injection H as <- <- <-. destruct (str_lit_split _ _ _ _ E) as (-> & _).
    split; [reflexivity|]. split; [discriminate|]. cbn [tok_ok]. apply str_lit_quoted with (b ++ r0) r0. exact E. }
  destruct (ascii_alpha c) eqn:A.
  { pose proof (span_split ascii_alpha (c :: s)) as Sp. destruct (span ascii_alpha (c :: s)) as [x y] eqn:Es.
    destruct Sp as (Ex & F & _). intro H; injection H as <- <- <-. split; [exact Ex|]. split.
    - cbn [span] in Es. rewrite A in Es. destruct (span ascii_alpha s). injection Es as <- _. discriminate.
    - apply word_tok_ok. exact F. }
  destruct (is_digit c) eqn:D.
  { pose proof (span_split is_digit (c :: s)) as Sp. destruct (span is_digit (c :: s)) as [ds y] eqn:Es.
    destruct Sp as (Ex & F & _).
    assert (Hne : ds <> []).
    { cbn [span] in Es. rewrite D in Es. destruct (span is_digit s). injection Es as <- _. discriminate. }
    destruct (decimal_lit ds y) as [[d r']|] eqn:Ed.
    - intro H; injection H as <- <- <-. destruct (decimal_lit_sound _ _ _ _ F Ed) as (Eq & c0 & f & E1 & E2 & Df).
      split; [rewrite Ex; exact Eq|]. split; [rewrite E2; destruct ds; discriminate|].
      exists ds, f. split; [|split; [exact E2|auto]].
      left. split; [apply digits_of; assumption|]. rewrite E1. rewrite E1 in F. inversion F; subst.
      pose proof (one_digit_value c0 ltac:(assumption)). lia.
    - unfold num_tok. intro H. assert (H' : a = ds /\ r = y) by (split; congruence). destruct H' as [-> ->].
      split; [exact Ex|]. split; [exact Hne|].
      destruct (N.ltb_spec (dec_value ds 0) two64) as [L|L]; injection H as <-; [|exact Logic.I].
      cbn [tok_ok]. split; [apply digits_of; assumption|]. split; [exact L|reflexivity]. }
  destruct (N.eqb_spec c 45) as [->|_].
  { pose proof (span_split is_digit s) as Sp. destruct (span is_digit s) as [ds y] eqn:Es.
    destruct Sp as (-> & F & _). destruct ds as [|d0 ds0]; [exact Er|].
    set (ds := d0 :: ds0) in *. assert (Hne : ds <> []) by discriminate. clearbody ds.
    destruct (decimal_lit ds y) as [[d r']|] eqn:Ed.
    - intro H; injection H as <- <- <-. destruct (decimal_lit_sound _ _ _ _ F Ed) as (Eq & c0 & f & E1 & E2 & Df).
      split; [cbn; f_equal; exact Eq|]. split; [discriminate|].
      exists (45 :: ds), f. split; [|split; [cbn; f_equal; exact E2|auto]].
      right. exists ds. split; [reflexivity|]. split; [apply digits_of; assumption|].
      rewrite E1. rewrite E1 in F. inversion F; subst.
      pose proof (one_digit_value c0 ltac:(assumption)). lia.
    - unfold int_tok. intro H. assert (H' : a = 45 :: ds /\ r = y) by (split; congruence). destruct H' as [-> ->].
      split; [reflexivity|]. split; [discriminate|].
      destruct (N.leb_spec (dec_value ds 0) 9223372036854775808) as [L|L]; injection H as <-; [|exact Logic.I].
      right. exists ds. split; [reflexivity|]. split; [apply digits_of; assumption|exact L]. }
  destruct (N.eqb_spec c 46) as [->|_].
  { pose proof (span_split is_digit s) as Sp. destruct (span is_digit s) as [ds y] eqn:Es.
    destruct Sp as (-> & F & _). destruct ds as [|d0 ds0]; [exact Er|].
    intro H; injection H as <- <- <-. split; [reflexivity|]. split; [discriminate|exact Logic.I]. }
  exact Er.
Qed.

Lemma next_sound s k a r : next junk s = Some (k, a, r) ->
  exists b, Forall blank b /\ s = b ++ a ++ r /\ a <> [] /\ tok_ok k a.
Proof.
  unfold next. destruct (skip_blank_split s) as (b & B & E & _).
  destruct (skip_blank s) as [|c t]; [discriminate|]. intro H. injection H as H.
  apply lex_at_sound in H. destruct H as (E' & Hne & K). exists b. rewrite <- E'. auto.
Qed.
Lemma next_none s : next junk s = None -> Forall blank s.
Proof.
  unfold next. destruct (skip_blank_split s) as (b & B & E & _).
  destruct (skip_blank s) as [|c t]; [|discriminate]. intros _. rewrite E, app_nil_r. exact B.
Qed.

(** * reads *)
Lemma reads_one b a r : Forall blank b -> reads [a] (b ++ a ++ r) r.
Proof. intro B. constructor; [exact B|constructor]. Qed.
Lemma reads_app ws ws' s m r : reads ws s m -> reads ws' m r -> reads (ws ++ ws') s r.
Proof.
  intro H. induction H as [s|b x ws s m B H IH]; intro H'; [exact H'|].
  cbn [app]. constructor; auto.
Qed.
Lemma reads_snoc ws x s m r : reads ws s m -> reads [x] m r -> reads (ws ++ [x]) s r.
Proof. apply reads_app. Qed.
Lemma reads_push x ws s m r : reads [x] s m -> reads ws m r -> reads (x :: ws) s r.
Proof. apply (reads_app [x]). Qed.
Lemma next_reads s k a r : next junk s = Some (k, a, r) -> reads [a] s r /\ tok_ok k a.
Proof.
  intro H. destruct (next_sound _ _ _ _ H) as (b & B & -> & _ & K). split; [apply reads_one; exact B|exact K].
Qed.

Lemma pbind_inv {A B} (p : parser A) (f : A -> parser B) s y r : pbind p f s = Some (y, r) ->
  exists a m, p s = Some (a, m) /\ f a m = Some (y, r).
Proof. unfold pbind. destruct (p s) as [[a m]|]; [eauto|discriminate]. Qed.
Lemma expect_inv t s a r : expect junk t s = Some (a, r) -> exists k, t k = true /\ next junk s = Some (k, a, r).
Proof.
  unfold expect. destruct (next junk s) as [[[k x] y]|]; [|discriminate].
  destruct (t k) eqn:E; [|discriminate]. intro H. injection H as <- <-. eauto.
Qed.
Lemma expect_left s a r : expect junk is_left s = Some (a, r) -> reads [S_ "("] s r.
Proof.
  intro H. destruct (expect_inv _ _ _ _ H) as (k & K & N0). destruct k; try discriminate K.
  destruct (next_reads _ _ _ _ N0) as [R E]. cbn [tok_ok] in E. subst a. exact R.
Qed.
Lemma expect_right s a r : expect junk is_right s = Some (a, r) -> reads [S_ ")"] s r.
Proof.
  intro H. destruct (expect_inv _ _ _ _ H) as (k & K & N0). destruct k; try discriminate K.
  destruct (next_reads _ _ _ _ N0) as [R E]. cbn [tok_ok] in E. subst a. exact R.
Qed.
Lemma expect_comma s a r : parse_comma junk s = Some (a, r) -> reads [S_ ","] s r.
Proof.
  intro H. destruct (expect_inv _ _ _ _ H) as (k & K & N0). destruct k; try discriminate K.
  destruct (next_reads _ _ _ _ N0) as [R E]. cbn [tok_ok] in E. subst a. exact R.
Qed.
Lemma parse_string_sound s v r : parse_string junk s = Some (v, r) -> exists a, reads [a] s r /\ string_word false a v.
Proof.
  unfold parse_string. destruct (expect junk is_string s) as [[a m]|] eqn:E; [|discriminate].
  destruct (process_raw_string (trim_quotes a)) as [v'|] eqn:P; [|discriminate].
  intro H. injection H as <- <-. destruct (expect_inv _ _ _ _ E) as (k & K & N0). destruct k; try discriminate K.
  destruct (next_reads _ _ _ _ N0) as [R Q]. cbn [tok_ok] in Q. exists a. split; [exact R|].
  exists (trim_quotes a). split; [exact Q|]. apply process_raw_string_spec. exact P.
Qed.

Lemma with_fraction_sound a r v b r' s : reads [a] s r -> int_word a ->
  with_fraction junk a r = Some (v, b, r') ->
  reads [v] s r' /\ if b then dec_word false v else v = a.
Proof.
  intros R I0 H. unfold with_fraction in H.
  destruct r as [|c r]; [injection H as <- <- <-; auto|].
  destruct (N.eqb_spec c 46) as [->|_]; [|injection H as <- <- <-; auto].
  destruct (next junk (46 :: r)) as [[[k x] y]|] eqn:E; [|discriminate]. injection H as <- <- <-.
  destruct (next_sound _ _ _ _ E) as (bl & B & Eq & Hne & _).
  destruct bl as [|z bl].
  2:{ exfalso. injection Eq as <- _. inversion B as [|? ? Hb ?]; subst. unfold blank in Hb. lia. }
  cbn [app] in Eq. destruct x as [|z x]; [congruence|]. injection Eq as <- Eq.
  inversion R as [|bl a' ws s' r0 B' R' E1 E2 E3]; subst. inversion R'; subst.
  split.
  - replace (bl ++ a ++ 46 :: x ++ y) with (bl ++ (a ++ 46 :: x) ++ y) by (rewrite <- app_assoc; reflexivity).
    apply reads_one. exact B'.
  - exists a, x. split; [exact I0|]. split; [reflexivity|discriminate].
Qed.
Lemma num_int a n : tok_ok (TNum n) a -> int_word a.
Proof. intros (D & L & _). left. auto. Qed.

(** * Values *)
Lemma vt_data_spec t : type_of_data t (vt_data t).
Proof. destruct t; reflexivity. Qed.

Lemma primitive_sound again s x r : parse_primitive_with junk again s = Some (x, r) ->
  (exists ws, reads ws s r /\ primitive false ws (fst (fst x)) (snd (fst x)) /\ snd x = None) \/
  (exists p m, again = Some p /\ reads [S_ "fromProviderState"] s m /\ p m = Some (x, r)).
Proof.
  unfold parse_primitive_with. destruct (next junk s) as [[[k a] m]|] eqn:E; [|discriminate].
  destruct (next_reads _ _ _ _ E) as [R K].
  assert (NumCase : int_word a ->
    match with_fraction junk a m with
    | Some (v, true, r') => Some ((v, VDecimal, None), r')
    | Some (v, false, r') => Some ((v, VInteger, None), r')
    | None => None
    end = Some (x, r) ->
    exists ws, reads ws s r /\ primitive false ws (fst (fst x)) (snd (fst x)) /\ snd x = None).
  { intros I0 H. destruct (with_fraction junk a m) as [[[v [|]] r']|] eqn:Ef; [| |discriminate];
      injection H as <- <-; destruct (with_fraction_sound _ _ _ _ _ _ R I0 Ef) as [R' W]; cbn in W.
    - exists [v]. split; [exact R'|]. split; [apply pr_dec; exact W|reflexivity].
    - subst v. exists [a]. split; [exact R'|]. split; [apply pr_int; exact I0|reflexivity]. }
  destruct k; try discriminate.
  - intro H. injection H as <- <-. left. exists [a]. split; [exact R|]. split; [|reflexivity]. cbn. constructor. exact K.
  - destruct again as [p|]; [|discriminate].
    destruct (str_eqb_spec a (S_ "fromProviderState")) as [->|]; [|discriminate].
    intro H. right. exists p, m. auto.
  - intro H. left. apply NumCase; [exact K|exact H].
  - intro H. left. apply NumCase; [apply (num_int _ _ K)|exact H].
  - intro H. injection H as <- <-. left. exists [a]. split; [exact R|]. split; [|reflexivity]. apply pr_dec.
    destruct K as (i & f & I0 & Ea & Df). exists i, f. split; [exact I0|]. split; [exact Ea|discriminate].
  - intro H. injection H as <- <-. left. exists [a]. split; [exact R|]. split; [|reflexivity]. cbn [fst snd].
    cbn [tok_ok] in K. destruct K as [-> | ->]; constructor.
  - intro H. injection H as <- <-. left. exists [a]. split; [exact R|]. split; [|reflexivity]. cbn [fst snd].
    cbn [tok_ok] in K. rewrite K. apply pr_null.
Qed.

Lemma from_state_sound s x r : from_provider_state junk s = Some (x, r) ->
  exists ws g, reads ws s r /\ from_state false ws (fst (fst x)) (snd (fst x)) g /\ snd x = Some g.
Proof.
  unfold from_provider_state, from_provider_state_with. intro H.
  apply pbind_inv in H. destruct H as (q & m1 & H1 & H). apply expect_left in H1.
  apply pbind_inv in H. destruct H as (e & m2 & H2 & H). apply parse_string_sound in H2. destruct H2 as (a & R2 & Ha).
  apply pbind_inv in H. destruct H as (q2 & m3 & H3 & H). apply expect_comma in H3.
  apply pbind_inv in H. destruct H as (y & m4 & H4 & H).
  apply pbind_inv in H. destruct H as (q3 & m5 & H5 & H). apply expect_right in H5.
  apply primitive_sound in H4. destruct H4 as [(ws & R4 & P4 & N4)|(p & ? & X & _)]; [|discriminate].
  destruct y as [[v t] g0]. cbn [fst snd] in *. unfold ret in H. injection H as <- <-.
  exists ([S_ "("; a; S_ ","] ++ ws ++ [S_ ")"]), (GProviderState e (Some (vt_data t))).
  split; [|split; [|reflexivity]].
  - cbn [app]. eapply reads_push; [exact H1|]. eapply reads_push; [exact R2|]. eapply reads_push; [exact H3|].
    eapply reads_app; [exact R4|exact H5].
  - cbn [fst snd]. constructor; [exact Ha|exact P4|apply vt_data_spec].
Qed.

Lemma value_sound s x r : parse_primitive_value junk s = Some (x, r) ->
  exists ws, reads ws s r /\ value false ws (fst (fst x)) (snd (fst x)) (snd x).
Proof.
  intro H. apply primitive_sound in H. destruct H as [(ws & R & P & E)|(p & m & E & R & H)].
  - exists ws. split; [exact R|]. rewrite E. constructor. exact P.
  - injection E as <-. apply from_state_sound in H. destruct H as (ws & g & R' & F & E).
    exists (S_ "fromProviderState" :: ws). split; [eapply reads_push; eassumption|]. rewrite E. constructor. exact F.
Qed.

(** * Matchers *)
Definition m_value (m : mresult) : str := fst (fst (fst m)).
Definition m_type (m : mresult) : value_type := snd (fst (fst m)).
Definition m_rule (m : mresult) : rule + str := snd (fst m).
Definition m_gen (m : mresult) : option generator := snd m.
Definition gives (name : string) (s : str) (m : mresult) (r : str) : Prop :=
  exists ws, reads ws s r /\ matcher w false (S_ name :: ws) (m_value m) (m_type m) (m_rule m) (m_gen m).

Ltac pinv H a m H1 := apply pbind_inv in H; destruct H as (a & m & H1 & H).

Lemma with_primitive_sound rl s x r : parse_with_primitive junk rl s = Some (x, r) ->
  exists ws v t g, reads (S_ "," :: ws) s r /\ value false ws v t g /\ x = (v, t, inl rl, g).
Proof.
  unfold parse_with_primitive. intro H. pinv H q m1 H1. apply expect_comma in H1. pinv H y m2 H2.
  apply value_sound in H2. destruct H2 as (ws & R & V). unfold ret in H. injection H as <- <-.
  exists ws, (fst (fst y)), (snd (fst y)), (snd y). split; [eapply reads_push; eassumption|]. auto.
Qed.
Lemma two_strings_sound f t s x r : parse_two_strings junk f t s = Some (x, r) ->
  exists a u b v, reads [S_ ","; a; S_ ","; b] s r /\ string_word false a u /\ string_word false b v /\
    x = (v, t, inl (f u), None).
Proof.
  unfold parse_two_strings. intro H. pinv H q m1 H1. apply expect_comma in H1.
  pinv H u m2 H2. apply parse_string_sound in H2. destruct H2 as (a & R2 & Ha).
  pinv H q2 m3 H3. apply expect_comma in H3.
  pinv H v m4 H4. apply parse_string_sound in H4. destruct H4 as (b & R4 & Hb).
  unfold ret in H. injection H as <- <-. exists a, u, b, v.
  split; [|auto]. eapply reads_push; [exact H1|]. eapply reads_push; [exact R2|]. eapply reads_push; [exact H3|]. exact R4.
Qed.

Lemma starts_with_spec p s : starts_with p s = true <-> exists t, s = p ++ t.
Proof.
  revert s. induction p as [|a p IH]; intro s; cbn [starts_with].
  - split; [exists s; reflexivity|reflexivity].
  - destruct s as [|b s].
    + split; [discriminate|]. intros [t E]. discriminate.
    + rewrite andb_true_iff, N.eqb_eq, IH. split.
      * intros [-> [t ->]]. exists t. reflexivity.
      * intros [t E]. injection E as -> ->. split; [reflexivity|]. exists t. reflexivity.
Qed.
Lemma trim_start_split s : exists b, s = b ++ trim_start w s /\ Forall (fun c => is_white w c = true) b.
Proof.
  induction s as [|c s (b & E & F)]; cbn [trim_start]; [exists []; auto|].
  destruct (is_white w c) eqn:W.
  - exists (c :: b). split; [cbn; f_equal; exact E|constructor; auto].
  - exists []. auto.
Qed.

(** A text in which no bracket comes before the first character that is not blank does not begin with a bracket. *)
Lemma no_left u t a r : (forall c, In c u -> c <> 40) -> (exists c, In c u /\ is_blank c = false) ->
  next junk (u ++ t) = Some (TLeft, a, r) -> False.
Proof.
  intros Hn [c [Hc Hb]]. unfold next.
  assert (E : exists x y, skip_blank (u ++ t) = x :: y /\ In x u).
  { clear Hn. induction u as [|d u IH]; [destruct Hc|]. cbn [app skip_blank].
    destruct (is_blank d) eqn:Ed.
    - destruct Hc as [->|Hc]; [congruence|]. destruct (IH Hc) as (x & y & E & I0). exists x, y. split; [exact E|right; exact I0].
    - exists d, (u ++ t). split; [reflexivity|left; reflexivity]. }
  destruct E as (x & y & -> & I0). specialize (Hn x I0). intro H.
  assert (H' : lex_at junk (x :: y) x y = (TLeft, a, r)) by congruence. clear H.
  apply lex_at_sound in H'. destruct H' as (E & _ & K). cbn [tok_ok] in K. subst a.
  injection E as E _. apply Hn. exact E.
Qed.

Lemma skipn_suffix {A} n (l : list A) c : In c (skipn n l) -> In c l.
Proof. revert l. induction n as [|n IH]; intros [|x l] H; cbn in *; auto. Qed.

Lemma fps_sound s u m y r2 : starts_with (S_ "fromProviderState") (trim_start w s) = true ->
  skip_token junk s = Some (u, m) -> expect junk is_left m = Some (y, r2) ->
  exists a, reads [a] s m /\ state_word false a.
Proof.
  intros P Sk L.
  apply starts_with_spec in P. destruct P as [t Pt].
  destruct (trim_start_split s) as (wh & Es & Fw). rewrite Pt in Es.
  unfold skip_token in Sk. destruct (next junk s) as [[[k a] r']|] eqn:En.
  2:{ injection Sk as <- <-. discriminate L. }
  injection Sk as <- <-.
  destruct (next_sound _ _ _ _ En) as (b & B & Eq & Hne & K). exists a.
  split; [rewrite Eq; apply reads_one; exact B|]. unfold state_word.
  destruct (expect_inv _ _ _ _ L) as (k' & K' & L'). destruct k'; try discriminate K'. clear K' L.
  (* s = b ++ a ++ r' = wh ++ "fromProviderState" ++ t; cut off the blanks b *)
  assert (Cut : exists wh2, Forall (fun c => is_white w c = true) wh2 /\ a ++ r' = wh2 ++ S_ "fromProviderState" ++ t).
  { rewrite Eq in Es. clear - Es Fw B. revert wh Fw Es. induction B as [|z b Hz B IH]; intros wh Fw Es.
    - exists wh. auto.
    - destruct Fw as [|z' wh Hw Fw].
      + exfalso. cbn [app] in Es. injection Es as -> _. unfold blank in Hz. cbn in Hz. lia.
      + cbn [app] in Es. injection Es as _ Es. apply (IH wh Fw). exact Es. }
  destruct Cut as (wh2 & Fw2 & Eq2).
  set (fps := S_ "fromProviderState") in *.
  destruct (le_lt_dec (length wh2 + length fps) (length a)) as [Hl|Hl].
  - (* the whole word is inside the token *)
    exists wh2, (skipn (length wh2 + length fps) a).
    assert (E3 : firstn (length wh2 + length fps) (a ++ r') = wh2 ++ fps).
    { rewrite Eq2, app_assoc, <- app_length, firstn_app, Nat.sub_diag, firstn_all. cbn. apply app_nil_r. }
    rewrite firstn_app in E3. replace (length wh2 + length fps - length a)%nat with 0%nat in E3 by lia.
    cbn [firstn] in E3. rewrite app_nil_r in E3.
    rewrite app_assoc, <- E3. symmetry. apply firstn_skipn.
  - (* otherwise what is left begins inside it, and not with a bracket *)
    exfalso.
    assert (Hr : r' = skipn (length a) (wh2 ++ fps) ++ t).
    { assert (X : skipn (length a) (a ++ r') = skipn (length a) ((wh2 ++ fps) ++ t)) by (rewrite Eq2, app_assoc; reflexivity).
      rewrite skipn_app, skipn_all, Nat.sub_diag in X. cbn [app skipn] in X. rewrite X, skipn_app.
      replace (length a - length (wh2 ++ fps))%nat with 0%nat by (rewrite app_length; lia). reflexivity. }
    rewrite Hr in L'. eapply no_left; [| |exact L'].
    + intros c Hc Ec. apply skipn_suffix in Hc. subst c. apply in_app_or in Hc. destruct Hc as [Hc|Hc].
      * rewrite Forall_forall in Fw2. specialize (Fw2 _ Hc). discriminate Fw2.
      * unfold fps in Hc. cbn in Hc. repeat destruct Hc as [Hc|Hc]; try discriminate. exact Hc.
    + exists 101. split; [|reflexivity].
      assert (Hend : wh2 ++ fps = (wh2 ++ S_ "fromProviderStat") ++ [101]) by (rewrite <- app_assoc; reflexivity).
      rewrite Hend, skipn_app. apply in_or_app. right.
      replace (length a - length (wh2 ++ S_ "fromProviderStat"))%nat with 0%nat; [left; reflexivity|].
      rewrite app_length. unfold fps in Hl. cbn [length S_] in *. lia.
Qed.

Lemma format_sound f g s x r : parse_format junk w f g s = Some (x, r) ->
  (exists a fmt b v, reads [S_ ","; a; S_ ","; b] s r /\ string_word false a fmt /\ string_word false b v /\
     x = (v, VString, inl (f fmt), Some (g fmt))) \/
  (exists a fmt y ws v t gen, reads ([S_ ","; a; S_ ","; y] ++ ws) s r /\ string_word false a fmt /\ state_word false y /\
     from_state false ws v t gen /\ x = (v, t, inl (f fmt), Some gen)).
Proof.
  unfold parse_format. intro H. pinv H q m1 H1. apply expect_comma in H1.
  pinv H fmt m2 H2. apply parse_string_sound in H2. destruct H2 as (a & R2 & Ha).
  pinv H q2 m3 H3. apply expect_comma in H3.
  destruct (starts_with (S_ "fromProviderState") (trim_start w m3)) eqn:P.
  - right. pinv H u m4 H4. pinv H y m5 H5.
    assert (Lf : exists y0 r0, expect junk is_left m4 = Some (y0, r0)).
    { unfold from_provider_state, from_provider_state_with in H5. apply pbind_inv in H5. destruct H5 as (q3 & r0 & L & _). eauto. }
    destruct Lf as (y0 & r0 & L). destruct (fps_sound _ _ _ _ _ P H4 L) as (b & R4 & Sw).
    apply from_state_sound in H5. destruct H5 as (ws & gen & R5 & F & Eg).
    unfold ret in H. injection H as <- <-. exists a, fmt, b, ws, (fst (fst y)), (snd (fst y)), gen.
    split; [|split; [exact Ha|split; [exact Sw|split; [exact F|rewrite Eg; reflexivity]]]].
    cbn [app]. eapply reads_push; [exact H1|]. eapply reads_push; [exact R2|]. eapply reads_push; [exact H3|].
    eapply reads_push; [exact R4|]. exact R5.
  - left. pinv H v m4 H4. apply parse_string_sound in H4. destruct H4 as (b & R4 & Hb).
    unfold ret in H. injection H as <- <-. exists a, fmt, b, v. split; [|auto].
    eapply reads_push; [exact H1|]. eapply reads_push; [exact R2|]. eapply reads_push; [exact H3|]. exact R4.
Qed.

Lemma state_or_fail_sound a rl s x r : state_or_fail junk a rl s = Some (x, r) ->
  a = S_ "fromProviderState" /\
  exists ws v t g, reads ws s r /\ from_state false ws v t g /\ x = (v, t, inl rl, Some g).
Proof.
  unfold state_or_fail. destruct (str_eqb_spec a (S_ "fromProviderState")) as [->|]; [|discriminate].
  intro H. pinv H y m H1. apply from_state_sound in H1. destruct H1 as (ws & g & R & F & E).
  unfold ret in H. injection H as <- <-. split; [reflexivity|].
  exists ws, (fst (fst y)), (snd (fst y)), g. rewrite E. auto.
Qed.

Lemma number_word_loose a : dec_word true a -> number_word false a.
Proof. intros (i & f & I0 & E & _). right. exists i, f. split; [exact I0|]. split; [exact E|discriminate]. Qed.
Lemma fraction_number a b v : int_word a -> (if b : bool then dec_word false v else v = a) -> number_word false v.
Proof. intros I0. destruct b; [right; assumption|intros ->; left; exact I0]. Qed.

Lemma parse_number_sound s x r : parse_number junk s = Some (x, r) -> gives "number" s x r.
Proof.
  unfold parse_number. intro H. pinv H q m1 H1. apply expect_comma in H1. unfold gives.
  destruct (next junk m1) as [[[k a] m2]|] eqn:E; [|discriminate].
  destruct (next_reads _ _ _ _ E) as [R K].
  assert (NumCase : int_word a ->
     match with_fraction junk a m2 with
     | Some (v, _, r') => Some ((v, VNumber, inl RNumber, None), r') | None => None end = Some (x, r) ->
     exists ws, reads ws s r /\ matcher w false (S_ "number" :: ws) (m_value x) (m_type x) (m_rule x) (m_gen x)).
  { intros I0 H0. destruct (with_fraction junk a m2) as [[[v b] r']|] eqn:Ef; [|discriminate]. injection H0 as <- <-.
    destruct (with_fraction_sound _ _ _ _ _ _ R I0 Ef) as [R' W].
    exists [S_ ","; v]. split; [eapply reads_push; eassumption|]. apply ma_number. eapply fraction_number; eassumption. }
  destruct k; try discriminate.
  - apply state_or_fail_sound in H. destruct H as (-> & ws & v & t & g & R2 & F & ->).
    exists ([S_ ","; S_ "fromProviderState"] ++ ws). split; [|apply ma_number_state; exact F].
    cbn [app]. eapply reads_push; [exact H1|]. eapply reads_push; [exact R|]. exact R2.
  - apply NumCase; [exact K|exact H].
  - apply NumCase; [apply (num_int _ _ K)|exact H].
  - injection H as <- <-. exists [S_ ","; a]. split; [eapply reads_push; eassumption|].
    apply ma_number. apply number_word_loose. exact K.
Qed.
Lemma parse_integer_sound s x r : parse_integer junk s = Some (x, r) -> gives "integer" s x r.
Proof.
  unfold parse_integer. intro H. pinv H q m1 H1. apply expect_comma in H1. unfold gives.
  destruct (next junk m1) as [[[k a] m2]|] eqn:E; [|discriminate].
  destruct (next_reads _ _ _ _ E) as [R K].
  destruct k; try discriminate.
  - apply state_or_fail_sound in H. destruct H as (-> & ws & v & t & g & R2 & F & ->).
    exists ([S_ ","; S_ "fromProviderState"] ++ ws). split; [|apply ma_integer_state; exact F].
    cbn [app]. eapply reads_push; [exact H1|]. eapply reads_push; [exact R|]. exact R2.
  - injection H as <- <-. exists [S_ ","; a]. split; [eapply reads_push; eassumption|]. apply ma_integer. exact K.
  - injection H as <- <-. exists [S_ ","; a]. split; [eapply reads_push; eassumption|]. apply ma_integer.
    apply (num_int _ _ K).
Qed.
Lemma parse_decimal_sound s x r : parse_decimal junk s = Some (x, r) -> gives "decimal" s x r.
Proof.
  unfold parse_decimal. intro H. pinv H q m1 H1. apply expect_comma in H1. unfold gives.
  destruct (next junk m1) as [[[k a] m2]|] eqn:E; [|discriminate].
  destruct (next_reads _ _ _ _ E) as [R K].
  assert (NumCase : int_word a ->
     match with_fraction junk a m2 with
     | Some (v, _, r') => Some ((v, VDecimal, inl RDecimal, None), r') | None => None end = Some (x, r) ->
     exists ws, reads ws s r /\ matcher w false (S_ "decimal" :: ws) (m_value x) (m_type x) (m_rule x) (m_gen x)).
  { intros I0 H0. destruct (with_fraction junk a m2) as [[[v b] r']|] eqn:Ef; [|discriminate]. injection H0 as <- <-.
    destruct (with_fraction_sound _ _ _ _ _ _ R I0 Ef) as [R' W].
    exists [S_ ","; v]. split; [eapply reads_push; eassumption|]. apply ma_decimal. eapply fraction_number; eassumption. }
  destruct k; try discriminate.
  - apply state_or_fail_sound in H. destruct H as (-> & ws & v & t & g & R2 & F & ->).
    exists ([S_ ","; S_ "fromProviderState"] ++ ws). split; [|apply ma_decimal_state; exact F].
    cbn [app]. eapply reads_push; [exact H1|]. eapply reads_push; [exact R|]. exact R2.
  - apply NumCase; [exact K|exact H].
  - apply NumCase; [apply (num_int _ _ K)|exact H].
  - injection H as <- <-. exists [S_ ","; a]. split; [eapply reads_push; eassumption|].
    apply ma_decimal. apply number_word_loose. exact K.
Qed.

Lemma parse_matching_rule_sound s x r : parse_matching_rule junk w s = Some (x, r) ->
  exists ws, reads ws s r /\ matcher w false ws (m_value x) (m_type x) (m_rule x) (m_gen x).
Proof.
  unfold parse_matching_rule. destruct (next junk s) as [[[k a] m]|] eqn:E; [|discriminate].
  destruct (next_reads _ _ _ _ E) as [R K]. clear E.
  assert (G : forall name, a = S_ name -> gives name m x r ->
    exists ws, reads ws s r /\ matcher w false ws (m_value x) (m_type x) (m_rule x) (m_gen x)).
  { intros name Ea (ws & R' & M). subst a. exists (S_ name :: ws). split; [eapply reads_push; eassumption|exact M]. }
  assert (Form : forall name f g, parse_format junk w f g m = Some (x, r) -> a = S_ name ->
     (forall fmt, In (S_ name, f fmt, g fmt) [(S_ "datetime", RTimestamp fmt, GDateTime (Some fmt) None);
        (S_ "date", RDate fmt, GDate (Some fmt) None); (S_ "time", RTime fmt, GTime (Some fmt) None)]) ->
     (forall fmt, In (S_ name, f fmt) [(S_ "datetime", RTimestamp fmt); (S_ "date", RDate fmt); (S_ "time", RTime fmt)]) ->
     exists ws, reads ws s r /\ matcher w false ws (m_value x) (m_type x) (m_rule x) (m_gen x)).
  { intros name f g H Ea In1 In2. apply (G name Ea). unfold gives. apply format_sound in H.
    destruct H as [(b & fmt & c & v & R' & Hb & Hc & ->)|(b & fmt & y & ws & v & t & gen & R' & Hb & Sw & F & ->)].
    - exists [S_ ","; b; S_ ","; c]. split; [exact R'|]. apply ma_format with fmt; auto.
    - exists ([S_ ","; b; S_ ","; y] ++ ws). split; [exact R'|].
      change (S_ name :: [S_ ","; b; S_ ","; y] ++ ws) with ([S_ name; S_ ","; b; S_ ","; y] ++ ws).
      apply ma_format_state with fmt; auto. }
  destruct k; try discriminate.
  - destruct (str_eqb_spec a (S_ "equalTo")) as [Ea|_].
    { intro H. apply (G _ Ea). apply with_primitive_sound in H. destruct H as (ws & v & t & g & R' & V & ->).
      exists (S_ "," :: ws). split; [exact R'|]. apply ma_equal. exact V. }
    destruct (str_eqb_spec a (S_ "regex")) as [Ea|_].
    { intro H. apply (G _ Ea). apply two_strings_sound in H. destruct H as (b & u & c & v & R' & Hb & Hc & ->).
      eexists. split; [exact R'|]. apply ma_regex; assumption. }
    destruct (str_eqb_spec a (S_ "type")) as [Ea|_].
    { intro H. apply (G _ Ea). apply with_primitive_sound in H. destruct H as (ws & v & t & g & R' & V & ->).
      exists (S_ "," :: ws). split; [exact R'|]. apply ma_type. exact V. }
    destruct (str_eqb_spec a (S_ "datetime")) as [Ea|_].
    { intro H. apply (Form _ _ _ H Ea); intro; cbn; auto. }
    destruct (str_eqb_spec a (S_ "date")) as [Ea|_].
    { intro H. apply (Form _ _ _ H Ea); intro; cbn; auto. }
    destruct (str_eqb_spec a (S_ "time")) as [Ea|_].
    { intro H. apply (Form _ _ _ H Ea); intro; cbn; auto. }
    destruct (str_eqb_spec a (S_ "include")) as [Ea|_].
    { intro H. apply (G _ Ea). unfold parse_include in H. pinv H q m1 H1. apply expect_comma in H1.
      pinv H v m2 H2. apply parse_string_sound in H2. destruct H2 as (b & R2 & Hb). unfold ret in H. injection H as <- <-.
      exists [S_ ","; b]. split; [eapply reads_push; eassumption|]. apply ma_include. exact Hb. }
    destruct (str_eqb_spec a (S_ "number")) as [Ea|_]. { intro H. apply (G _ Ea). apply parse_number_sound. exact H. }
    destruct (str_eqb_spec a (S_ "integer")) as [Ea|_]. { intro H. apply (G _ Ea). apply parse_integer_sound. exact H. }
    destruct (str_eqb_spec a (S_ "decimal")) as [Ea|_]. { intro H. apply (G _ Ea). apply parse_decimal_sound. exact H. }
    destruct (str_eqb_spec a (S_ "boolean")) as [Ea|_].
    { intro H. apply (G _ Ea). unfold parse_boolean in H. pinv H q m1 H1. apply expect_comma in H1.
      pinv H v m2 H2. destruct (expect_inv _ _ _ _ H2) as (k & K2 & N2). destruct k; try discriminate K2.
      destruct (next_reads _ _ _ _ N2) as [R2 K2']. unfold ret in H. injection H as <- <-.
      exists [S_ ","; v]. split; [eapply reads_push; eassumption|]. apply ma_boolean. exact K2'. }
    destruct (str_eqb_spec a (S_ "contentType")) as [Ea|_].
    { intro H. apply (G _ Ea). apply two_strings_sound in H. destruct H as (b & u & c & v & R' & Hb & Hc & ->).
      eexists. split; [exact R'|]. apply ma_content; assumption. }
    destruct (str_eqb_spec a (S_ "semver")) as [Ea|_]; [|discriminate].
    intro H. apply (G _ Ea). unfold parse_semver in H. pinv H q m1 H1. apply expect_comma in H1.
    pinv H v m2 H2. apply parse_string_sound in H2. destruct H2 as (b & R2 & Hb).
    destruct (semver_ok w v) eqn:Sv; [|discriminate]. unfold ret in H. injection H as <- <-.
    exists [S_ ","; b]. split; [eapply reads_push; eassumption|]. apply ma_semver; assumption.
  - cbn [tok_ok] in K. subst a. intro H. unfold parse_reference in H. pinv H v m1 H1.
    apply parse_string_sound in H1. destruct H1 as (b & R2 & Hb). unfold ret in H. injection H as <- <-.
    exists [S_ "$"; b]. split; [eapply reads_push; eassumption|]. apply ma_reference. exact Hb.
Qed.

Lemma brackets_sound {A} (p : parser A) (P : list str -> A -> Prop) :
  (forall s x r, p s = Some (x, r) -> exists ws, reads ws s r /\ P ws x) ->
  forall s x r, brackets junk p s = Some (x, r) -> exists ws, reads (in_brackets ws) s r /\ P ws x.
Proof.
  intros Hp s x r H. unfold brackets in H. pinv H q m1 H1. apply expect_left in H1.
  pinv H y m2 H2. apply Hp in H2. destruct H2 as (ws & R2 & Py).
  pinv H q2 m3 H3. apply expect_right in H3. unfold ret in H. injection H as <- <-.
  exists ws. split; [|exact Py]. unfold in_brackets. eapply reads_push; [exact H1|]. eapply reads_app; eassumption.
Qed.

Lemma definition_exp_sound v f : forall s d r, definition_exp junk w v f s = Some (d, r) ->
  exists ws, reads ws s r /\ one_def w false v ws d.
Proof.
  induction f as [|f IH]; intros s d r H; cbn [definition_exp] in H; [discriminate|].
  destruct (next junk s) as [[[k a] m]|] eqn:E; [|discriminate].
  destruct (next_reads _ _ _ _ E) as [R K]. clear E.
  assert (Len : forall x r0, parse_length_param junk m = Some (x, r0) ->
     exists b, reads (in_brackets [b]) m r0 /\ digits b /\ dec_value b 0 < 18446744073709551616 /\ x = dec_value b 0).
  { intros x r0 H0. unfold parse_length_param in H0.
    apply (brackets_sound _ (fun ws y => exists b, ws = [b] /\ digits b /\ dec_value b 0 < 18446744073709551616 /\ y = dec_value b 0)) in H0.
    - destruct H0 as (ws & R0 & b & -> & D). exists b. auto.
    - intros s1 y r1 H1. destruct (next junk s1) as [[[k1 b] m1]|] eqn:E1; [|discriminate].
      destruct (next_reads _ _ _ _ E1) as [R1 K1]. destruct k1; try discriminate. injection H1 as <- <-.
      exists [b]. split; [exact R1|]. exists b. split; [reflexivity|exact K1]. }
  destruct k; try discriminate; cbn [tok_ok] in K; subst a.
  - pinv H x m1 H1. unfold ret in H. injection H as <- <-. unfold parse_matching in H1.
    apply (brackets_sound _ _ parse_matching_rule_sound) in H1. destruct H1 as (ws & R1 & M).
    exists (S_ "matching" :: in_brackets ws). split; [eapply reads_push; eassumption|].
    destruct x as [[[v0 t] rl] g]. apply od_matching. exact M.
  - pinv H x m1 H1. unfold ret in H. injection H as <- <-. unfold parse_not_empty in H1.
    apply (brackets_sound _ _ value_sound) in H1. destruct H1 as (ws & R1 & M).
    exists (S_ "notEmpty" :: in_brackets ws). split; [eapply reads_push; eassumption|].
    apply od_not_empty. exact M.
  - pinv H x m1 H1. unfold ret in H. injection H as <- <-.
    apply (brackets_sound _ _ IH) in H1. destruct H1 as (ws & R1 & M).
    exists (S_ "eachKey" :: in_brackets ws). split; [eapply reads_push; eassumption|].
    apply od_each_key. exact M.
  - pinv H x m1 H1. unfold ret in H. injection H as <- <-.
    apply (brackets_sound _ _ IH) in H1. destruct H1 as (ws & R1 & M).
    exists (S_ "eachValue" :: in_brackets ws). split; [eapply reads_push; eassumption|].
    apply od_each_value. exact M.
  - pinv H x m1 H1. unfold ret in H. injection H as <- <-.
    apply Len in H1. destruct H1 as (b & R1 & D & L & ->).
    exists (S_ "atLeast" :: in_brackets [b]). split; [eapply reads_push; eassumption|]. apply od_at_least; assumption.
  - pinv H x m1 H1. unfold ret in H. injection H as <- <-.
    apply Len in H1. destruct H1 as (b & R1 & D & L & ->).
    exists (S_ "atMost" :: in_brackets [b]). split; [eapply reads_push; eassumption|]. apply od_at_most; assumption.
Qed.
End Sound.
