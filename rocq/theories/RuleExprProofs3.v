(** The parser of RuleExpr.v accepts whatever the documented grammar of SpecRuleExpr.v derives. *)
From Coq Require Import String List Arith NArith ZArith Lia Bool.
From Verif Require Import Base PathExp Json MatchingRules Expr Generators RuleExpr SpecRuleExpr RuleExprProofs RuleExprProofs2.
Import ListNotations.
Open Scope N_scope.

(** What can follow a word of letters or digits. *)
Definition stop (r : str) : Prop :=
  match r with
  | [] => True
  | c :: _ => blank c \/ c = 40 \/ c = 41 \/ c = 44
  end.
Lemma stop_not p r : stop r ->
  (forall c, blank c \/ c = 40 \/ c = 41 \/ c = 44 -> p c = false) ->
  match r with [] => True | c :: _ => p c = false end.
Proof. destruct r as [|c r]; [auto|]. intros H Hp. apply Hp, H. Qed.
Lemma stop_alpha r : stop r -> match r with [] => True | c :: _ => ascii_alpha c = false end.
Proof.
  intro H. apply stop_not; [exact H|]. intros c Hc. unfold blank in Hc.
  repeat destruct Hc as [Hc|Hc]; subst c; reflexivity.
Qed.
Lemma stop_digit r : stop r -> match r with [] => True | c :: _ => is_digit c = false end.
Proof.
  intro H. apply stop_not; [exact H|]. intros c Hc. unfold blank in Hc.
  repeat destruct Hc as [Hc|Hc]; subst c; reflexivity.
Qed.
Lemma stop_dot r : stop r -> match r with [] => True | c :: _ => (c =? 46) = false end.
Proof.
  intro H. apply stop_not with (p := fun c => c =? 46); [exact H|]. intros c Hc. unfold blank in Hc.
  repeat destruct Hc as [Hc|Hc]; subst c; reflexivity.
Qed.

Lemma reads_cons_inv x ws s r : reads (x :: ws) s r -> exists b m, Forall blank b /\ s = b ++ x ++ m /\ reads ws m r.
Proof. intro H. inversion H; subst. eauto. Qed.
Lemma reads_nil_inv s r : reads [] s r -> s = r.
Proof. intro H. inversion H; subst. reflexivity. Qed.
Lemma reads_app_inv ws ws' s r : reads (ws ++ ws') s r -> exists m, reads ws s m /\ reads ws' m r.
Proof.
  revert s. induction ws as [|x ws IH]; intros s H; cbn [app] in H.
  - exists s. split; [constructor|exact H].
  - apply reads_cons_inv in H. destruct H as (b & m & B & -> & H). destruct (IH _ H) as (m' & H1 & H2).
    exists m'. split; [constructor; assumption|exact H2].
Qed.
Lemma stop_punct c ws s r : c = 40 \/ c = 41 \/ c = 44 -> reads ([c] :: ws) s r -> stop s.
Proof.
  intros Hc H. apply reads_cons_inv in H. destruct H as (b & m & B & -> & _).
  destruct B as [|z b Hz B]; cbn; tauto.
Qed.
Lemma stop_right ws s r : reads (S_ ")" :: ws) s r -> stop s.
Proof. apply stop_punct. auto. Qed.
Lemma stop_comma ws s r : reads (S_ "," :: ws) s r -> stop s.
Proof. apply stop_punct. auto. Qed.
Lemma stop_left ws s r : reads (S_ "(" :: ws) s r -> stop s.
Proof. apply stop_punct. auto. Qed.

Lemma letters_not_blank c : ascii_alpha c = true -> is_blank c = false.
Proof.
  intro H. destruct (is_blank c) eqn:B; [|reflexivity]. apply is_blank_spec in B. unfold blank in B.
  repeat destruct B as [B|B]; subst c; discriminate.
Qed.
Lemma digit_not_blank c : digit c -> is_blank c = false.
Proof.
  intro H. destruct (is_blank c) eqn:B; [|reflexivity]. apply is_blank_spec in B. unfold blank in B. unfold digit in H. lia.
Qed.

Section Complete.
Variable junk : str -> nat.
Variable w : world.

Lemma next_at b c t : Forall blank b -> is_blank c = false -> next junk (b ++ c :: t) = Some (lex_at junk (c :: t) c t).
Proof. intros B H. unfold next. rewrite skip_blank_app by assumption. reflexivity. Qed.

Lemma next_left b r : Forall blank b -> next junk (b ++ S_ "(" ++ r) = Some (TLeft, S_ "(", r).
Proof. intro B. cbn [S_ app]. rewrite next_at by auto. reflexivity. Qed.
Lemma next_right b r : Forall blank b -> next junk (b ++ S_ ")" ++ r) = Some (TRight, S_ ")", r).
Proof. intro B. cbn [S_ app]. rewrite next_at by auto. reflexivity. Qed.
Lemma next_comma b r : Forall blank b -> next junk (b ++ S_ "," ++ r) = Some (TComma, S_ ",", r).
Proof. intro B. cbn [S_ app]. rewrite next_at by auto. reflexivity. Qed.
Lemma next_dollar b r : Forall blank b -> next junk (b ++ S_ "$" ++ r) = Some (TDollar, S_ "$", r).
Proof. intro B. cbn [S_ app]. rewrite next_at by auto. reflexivity. Qed.

Lemma alpha_range c : ascii_alpha c = true -> (65 <= c <= 90) \/ (97 <= c <= 122).
Proof.
  unfold ascii_alpha, is_upper, is_lower. rewrite orb_true_iff, !andb_true_iff, !N.leb_le. lia.
Qed.
Lemma next_word b a r : Forall blank b -> a <> [] -> Forall letter a -> stop r ->
  next junk (b ++ a ++ r) = Some (word_tok a, a, r).
Proof.
  intros B Hne F St. destruct a as [|c a]; [congruence|]. inversion F as [|? ? Hc F']; subst.
  cbn [app]. rewrite next_at by (auto using letters_not_blank). f_equal. unfold lex_at.
  pose proof (alpha_range c Hc) as Rg.
  destruct (N.eqb_spec c 40); [lia|]. destruct (N.eqb_spec c 41); [lia|]. destruct (N.eqb_spec c 44); [lia|].
  destruct (N.eqb_spec c 36); [lia|]. destruct (N.eqb_spec c 39); [lia|]. unfold letter in Hc. rewrite Hc.
  change (c :: a ++ r) with ((c :: a) ++ r). rewrite span_app; [reflexivity| |apply stop_alpha; exact St].
  exact F.
Qed.

Lemma digits_bool a : Forall digit a -> Forall (fun c => is_digit c = true) a.
Proof. intro F. eapply Forall_impl; [|exact F]. intros c. apply is_digit_spec. Qed.
Lemma not_alpha_digit c : digit c -> ascii_alpha c = false.
Proof.
  unfold digit. intro H. destruct (ascii_alpha c) eqn:E; [|reflexivity]. apply alpha_range in E. lia.
Qed.
(** Digits at the start of a text. *)
Lemma lex_digits c a r : digits (c :: a) -> match r with [] => True | x :: _ => is_digit x = false end ->
  lex_at junk ((c :: a) ++ r) c (a ++ r) =
    match decimal_lit (c :: a) r with
    | Some (d, r') => (TDecimal, d, r')
    | None => (num_tok (c :: a), c :: a, r)
    end.
Proof.
  intros [_ F] St. pose proof F as F2. inversion F2 as [|? ? Hc F']; subst. unfold lex_at.
  pose proof Hc as Rg. unfold digit in Rg.
  destruct (N.eqb_spec c 40); [lia|]. destruct (N.eqb_spec c 41); [lia|]. destruct (N.eqb_spec c 44); [lia|].
  destruct (N.eqb_spec c 36); [lia|]. destruct (N.eqb_spec c 39); [lia|]. rewrite (not_alpha_digit c Hc).
  pose proof (proj2 (is_digit_spec c) Hc) as Hd. rewrite Hd.
  rewrite span_app; [reflexivity|apply digits_bool; exact F|exact St].
Qed.
Lemma lex_minus a r : digits a -> match r with [] => True | x :: _ => is_digit x = false end ->
  lex_at junk (45 :: a ++ r) 45 (a ++ r) =
    match decimal_lit a r with
    | Some (d, r') => (TDecimal, 45 :: d, r')
    | None => (int_tok a, 45 :: a, r)
    end.
Proof.
  intros [Hne F] St. unfold lex_at.
  change (45 =? 40) with false. change (45 =? 41) with false. change (45 =? 44) with false. change (45 =? 36) with false.
  change (45 =? 39) with false. change (ascii_alpha 45) with false. change (is_digit 45) with false. change (45 =? 45) with true.
  cbv iota. rewrite span_app; [|apply digits_bool; exact F|exact St].
  destruct a; [congruence|]. reflexivity.
Qed.
Lemma decimal_lit_none a r : match r with [] => True | x :: _ => (x =? 46) = false end -> decimal_lit a r = None.
Proof. unfold decimal_lit. destruct a as [|? [|? ?]]; auto. destruct r as [|c r]; auto. intros ->. reflexivity. Qed.
Lemma decimal_lit_some a f r : digits f -> stop r ->
  decimal_lit a (46 :: f ++ r) = match a with [d] => Some (a ++ 46 :: f, r) | _ => None end.
Proof.
  intros [Hne F] St. unfold decimal_lit. destruct a as [|x [|y a]]; auto.
  change (46 =? 46) with true. cbv iota. rewrite span_app; [|apply digits_bool; exact F|apply stop_digit; exact St].
  destruct f; [congruence|reflexivity].
Qed.

Definition num_kind (k : tok) : Prop := match k with TInt | TNum _ => True | _ => False end.

Lemma next_digits b a r : Forall blank b -> digits a -> dec_value a 0 < 18446744073709551616 -> stop r ->
  next junk (b ++ a ++ r) = Some (TNum (dec_value a 0), a, r).
Proof.
  intros B D L St. pose proof D as [Hne F]. destruct a as [|c a]; [congruence|].
  inversion F as [|? ? Hc F']; subst. cbn [app]. rewrite next_at by (auto using digit_not_blank). f_equal.
  change (c :: a ++ r) with ((c :: a) ++ r). rewrite lex_digits by (assumption || (apply stop_digit; assumption)).
  rewrite decimal_lit_none by (apply stop_dot; exact St). unfold num_tok.
  destruct (N.ltb_spec (dec_value (c :: a) 0) two64) as [_|X]; [reflexivity|].
  change two64 with 18446744073709551616 in X. lia.
Qed.
Lemma next_int b a r : Forall blank b -> int_word a -> stop r ->
  exists k, num_kind k /\ next junk (b ++ a ++ r) = Some (k, a, r).
Proof.
  intros B I0 St. destruct I0 as [[D L]|(ds & -> & D & L)].
  - eexists. split; [|apply next_digits; assumption]. exact Logic.I.
  - exists TInt. split; [exact Logic.I|]. cbn [app]. rewrite next_at by auto. f_equal.
    rewrite lex_minus by (assumption || (apply stop_digit; assumption)). rewrite decimal_lit_none by (apply stop_dot; exact St).
    unfold int_tok. destruct (N.leb_spec (dec_value ds 0) 9223372036854775808) as [_|X]; [reflexivity|lia].
Qed.
(** A number with a fraction is one token or two. *)
Lemma next_dec b a r : Forall blank b -> dec_word true a -> stop r ->
  next junk (b ++ a ++ r) = Some (TDecimal, a, r) \/
  exists k i m, num_kind k /\ next junk (b ++ a ++ r) = Some (k, i, m) /\ with_fraction junk i m = Some (a, true, r).
Proof.
  intros B (i & f & I0 & -> & Df) St. specialize (Df eq_refl).
  assert (Wf : forall i0, with_fraction junk i0 (46 :: f ++ r) = Some (i0 ++ 46 :: f, true, r)).
  { intro i0. unfold with_fraction. change (46 =? 46) with true. cbv iota.
    change (46 :: f ++ r) with ([] ++ 46 :: f ++ r). rewrite next_at by (auto; constructor).
    unfold lex_at. change (46 =? 40) with false. change (46 =? 41) with false. change (46 =? 44) with false. change (46 =? 36) with false.
    change (46 =? 39) with false. change (ascii_alpha 46) with false. change (is_digit 46) with false. change (46 =? 45) with false.
    change (46 =? 46) with true. cbv iota. destruct Df as [Hne F].
    rewrite span_app; [|apply digits_bool; exact F|apply stop_digit; exact St]. destruct f; [congruence|reflexivity]. }
  destruct I0 as [[D L]|(ds & -> & D & L)].
  - pose proof D as [Hne F]. destruct i as [|c i]; [congruence|].
    inversion F as [|? ? Hc F']; subst. rewrite <- app_assoc. cbn [app]. rewrite next_at by (auto using digit_not_blank).
    change (c :: i ++ 46 :: f ++ r) with ((c :: i) ++ 46 :: f ++ r). rewrite lex_digits by auto.
    rewrite decimal_lit_some by assumption.
    destruct i as [|c' i].
    + left. reflexivity.
    + right. exists (TNum (dec_value (c :: c' :: i) 0)), (c :: c' :: i), (46 :: f ++ r).
      split; [exact Logic.I|]. split; [|apply Wf]. unfold num_tok.
      destruct (N.ltb_spec (dec_value (c :: c' :: i) 0) two64) as [_|X]; [reflexivity|].
      change two64 with 18446744073709551616 in X. lia.
  - rewrite <- app_assoc. cbn [app]. rewrite next_at by auto.
    rewrite lex_minus by auto. rewrite decimal_lit_some by assumption.
    assert (Two : exists k i m, num_kind k /\ Some (int_tok ds, 45 :: ds, 46 :: f ++ r) = Some (k, i, m) /\
        with_fraction junk i m = Some (45 :: ds ++ 46 :: f, true, r)).
    { exists TInt, (45 :: ds), (46 :: f ++ r). split; [exact Logic.I|]. split; [|apply Wf].
      unfold int_tok. destruct (N.leb_spec (dec_value ds 0) 9223372036854775808) as [_|X]; [reflexivity|lia]. }
    destruct ds as [|c' [|c'' i]]; [right; exact Two| |right; exact Two]. left. reflexivity.
Qed.
Lemma next_quoted b a raw r : Forall blank b -> quoted true a raw ->
  next junk (b ++ a ++ r) = Some (TString, a, r) /\ trim_quotes a = raw.
Proof.
  intros B (-> & Hq & He). split.
  - change ([39] ++ raw ++ [39]) with (39 :: raw ++ [39]). cbn [app]. rewrite next_at by auto. f_equal. unfold lex_at.
    change (39 =? 40) with false. change (39 =? 41) with false. change (39 =? 44) with false. change (39 =? 36) with false.
    change (39 =? 39) with true. cbv iota. rewrite <- app_assoc. cbn [app].
    rewrite str_lit_plain; auto.
  - apply trim_quotes_plain. exact Hq.
Qed.

(** * Parsers *)
Lemma pbind_ok {A B} (p : parser A) (f : A -> parser B) s a m x :
  p s = Some (a, m) -> f a m = x -> pbind p f s = x.
Proof. intros H1 H2. unfold pbind. rewrite H1. exact H2. Qed.

Lemma ok_left ws s r : reads (S_ "(" :: ws) s r -> exists m, expect junk is_left s = Some (S_ "(", m) /\ reads ws m r.
Proof.
  intro H. apply reads_cons_inv in H. destruct H as (b & m & B & -> & H). exists m. split; [|exact H].
  unfold expect. rewrite next_left by exact B. reflexivity.
Qed.
Lemma ok_right ws s r : reads (S_ ")" :: ws) s r -> exists m, expect junk is_right s = Some (S_ ")", m) /\ reads ws m r.
Proof.
  intro H. apply reads_cons_inv in H. destruct H as (b & m & B & -> & H). exists m. split; [|exact H].
  unfold expect. rewrite next_right by exact B. reflexivity.
Qed.
Lemma ok_comma ws s r : reads (S_ "," :: ws) s r -> exists m, parse_comma junk s = Some (S_ ",", m) /\ reads ws m r.
Proof.
  intro H. apply reads_cons_inv in H. destruct H as (b & m & B & -> & H). exists m. split; [|exact H].
  unfold parse_comma, expect. rewrite next_comma by exact B. reflexivity.
Qed.
Lemma ok_string a v ws s r : string_word true a v -> reads (a :: ws) s r ->
  exists m, parse_string junk s = Some (v, m) /\ reads ws m r.
Proof.
  intros (raw & Q & U) H. apply reads_cons_inv in H. destruct H as (b & m & B & -> & H). exists m. split; [|exact H].
  destruct (next_quoted b a raw m B Q) as [N0 T]. unfold parse_string, expect. rewrite N0. cbn [is_string]. rewrite T.
  apply process_raw_string_spec in U. rewrite U. reflexivity.
Qed.

Lemma ok_primitive again ws v t s r : primitive true ws v t -> reads ws s r -> stop r ->
  parse_primitive_with junk again s = Some ((v, t, None), r).
Proof.
  intros P R St. unfold parse_primitive_with.
  destruct P as [a raw Q| |a I0|a D| |]; apply reads_cons_inv in R; destruct R as (b & m & B & -> & R);
    apply reads_nil_inv in R; subst m.
  - destruct (next_quoted b a raw r B Q) as [-> ->]. reflexivity.
  - rewrite next_word; try assumption; [reflexivity|discriminate|repeat constructor].
  - destruct (next_int b a r B I0 St) as (k & K & ->).
    assert (E : with_fraction junk a r = Some (a, false, r)).
    { unfold with_fraction. pose proof (stop_dot r St) as Sd. destruct r as [|c r]; [reflexivity|]. rewrite Sd. reflexivity. }
    destruct k; try destruct K; rewrite E; reflexivity.
  - destruct (next_dec b a r B D St) as [->|(k & i & m & K & -> & W)]; [reflexivity|].
    destruct k; try destruct K; rewrite W; reflexivity.
  - rewrite next_word; try assumption; [reflexivity|discriminate|repeat constructor].
  - rewrite next_word; try assumption; [reflexivity|discriminate|repeat constructor].
Qed.

Lemma data_spec t d : type_of_data t d -> vt_data t = d.
Proof. destruct t; cbn; intros ->; reflexivity. Qed.

Lemma ok_from_state ws v t g s r : from_state true ws v t g -> reads ws s r ->
  from_provider_state junk s = Some ((v, t, Some g), r).
Proof.
  intros F R. destruct F as [e text ws v t d He P Td]. cbn [app] in R.
  apply ok_left in R. destruct R as (m1 & H1 & R).
  destruct (ok_string _ _ _ _ _ He R) as (m2 & H2 & R2).
  apply ok_comma in R2. destruct R2 as (m3 & H3 & R3).
  apply reads_app_inv in R3. destruct R3 as (m4 & R4 & R5).
  pose proof (stop_right _ _ _ R5) as St.
  apply ok_right in R5. destruct R5 as (m5 & H5 & R5). apply reads_nil_inv in R5. subst m5.
  unfold from_provider_state, from_provider_state_with.
  eapply pbind_ok; [exact H1|]. eapply pbind_ok; [exact H2|]. eapply pbind_ok; [exact H3|].
  eapply pbind_ok; [apply (ok_primitive None _ _ _ _ _ P R4 St)|]. eapply pbind_ok; [exact H5|].
  cbv beta iota. rewrite (data_spec _ _ Td). reflexivity.
Qed.
Lemma from_state_starts ws v t g : from_state true ws v t g -> exists ws', ws = S_ "(" :: ws'.
Proof. intros []. eexists. reflexivity. Qed.

Lemma ok_value ws v t g s r : value true ws v t g -> reads ws s r -> stop r ->
  parse_primitive_value junk s = Some ((v, t, g), r).
Proof.
  intros V R St. destruct V as [ws v t P|ws v t g F].
  - apply (ok_primitive _ _ _ _ _ _ P R St).
  - destruct (from_state_starts _ _ _ _ F) as [ws' E].
    apply reads_cons_inv in R. destruct R as (b & m & B & -> & R).
    pose proof R as R'. rewrite E in R'. apply stop_left in R'.
    unfold parse_primitive_value, parse_primitive_with.
    rewrite next_word; [|exact B|discriminate|repeat constructor|exact R'].
    change (word_tok (S_ "fromProviderState")) with TId. cbv iota beta. rewrite str_eqb_refl.
    apply ok_from_state with ws; assumption.
Qed.

Lemma ok_state_or_fail ws v t g rl s r : from_state true ws v t g -> reads ws s r ->
  state_or_fail junk (S_ "fromProviderState") rl s = Some ((v, t, inl rl, Some g), r).
Proof.
  intros F R. unfold state_or_fail. rewrite str_eqb_refl.
  eapply pbind_ok; [apply (ok_from_state _ _ _ _ _ _ F R)|]. reflexivity.
Qed.
(** The words [number , fromProviderState ...]: what the three number parsers see. *)
Lemma next_state b ws v t g m r : Forall blank b -> from_state true ws v t g -> reads ws m r ->
  next junk (b ++ S_ "fromProviderState" ++ m) = Some (TId, S_ "fromProviderState", m).
Proof.
  intros B F R. destruct (from_state_starts _ _ _ _ F) as [ws' E]. rewrite E in R. apply stop_left in R.
  rewrite next_word; [reflexivity|exact B|discriminate|repeat constructor|exact R].
Qed.

Lemma ok_with_primitive rl ws v t g s r : value true ws v t g -> reads (S_ "," :: ws) s r -> stop r ->
  parse_with_primitive junk rl s = Some ((v, t, inl rl, g), r).
Proof.
  intros V R St. apply ok_comma in R. destruct R as (m & H & R). unfold parse_with_primitive.
  eapply pbind_ok; [exact H|]. eapply pbind_ok; [apply (ok_value _ _ _ _ _ _ V R St)|]. reflexivity.
Qed.
Lemma ok_two_strings f t a u b v s r : string_word true a u -> string_word true b v ->
  reads [S_ ","; a; S_ ","; b] s r -> parse_two_strings junk f t s = Some ((v, t, inl (f u), None), r).
Proof.
  intros Ha Hb R. apply ok_comma in R. destruct R as (m1 & H1 & R).
  destruct (ok_string _ _ _ _ _ Ha R) as (m2 & H2 & R2).
  apply ok_comma in R2. destruct R2 as (m3 & H3 & R3).
  destruct (ok_string _ _ _ _ _ Hb R3) as (m4 & H4 & R4). apply reads_nil_inv in R4. subst m4.
  unfold parse_two_strings. eapply pbind_ok; [exact H1|]. eapply pbind_ok; [exact H2|]. eapply pbind_ok; [exact H3|].
  eapply pbind_ok; [exact H4|]. reflexivity.
Qed.

Lemma blank_white c : blank c -> is_white w c = true.
Proof. unfold blank. intros [-> | [-> | [-> | ->]]]; reflexivity. Qed.
Lemma trim_start_app b c t : Forall blank b -> is_white w c = false -> trim_start w (b ++ c :: t) = c :: t.
Proof.
  intros B H. induction B as [|x b Hx B IH]; cbn [app trim_start].
  - rewrite H. reflexivity.
  - rewrite (blank_white x Hx). exact IH.
Qed.

Lemma ok_format f g a fmt b v s r : string_word true a fmt -> string_word true b v ->
  reads [S_ ","; a; S_ ","; b] s r -> parse_format junk w f g s = Some ((v, VString, inl (f fmt), Some (g fmt)), r).
Proof.
  intros Ha Hb R. apply ok_comma in R. destruct R as (m1 & H1 & R).
  destruct (ok_string _ _ _ _ _ Ha R) as (m2 & H2 & R2).
  apply ok_comma in R2. destruct R2 as (m3 & H3 & R3).
  assert (NotState : starts_with (S_ "fromProviderState") (trim_start w m3) = false).
  { destruct Hb as (raw & Q & _). destruct Q as (-> & _ & _).
    apply reads_cons_inv in R3. destruct R3 as (bl & m & B & -> & _). cbn [app].
    rewrite trim_start_app; [reflexivity|exact B|reflexivity]. }
  destruct (ok_string _ _ _ _ _ Hb R3) as (m4 & H4 & R4). apply reads_nil_inv in R4. subst m4.
  unfold parse_format. eapply pbind_ok; [exact H1|]. eapply pbind_ok; [exact H2|]. eapply pbind_ok; [exact H3|].
  cbv beta. rewrite NotState. eapply pbind_ok; [exact H4|]. reflexivity.
Qed.
Lemma ok_format_state f g a fmt ws v t gen s r : string_word true a fmt -> from_state true ws v t gen ->
  reads ([S_ ","; a; S_ ","; S_ "fromProviderState"] ++ ws) s r ->
  parse_format junk w f g s = Some ((v, t, inl (f fmt), Some gen), r).
Proof.
  intros Ha F R. cbn [app] in R. apply ok_comma in R. destruct R as (m1 & H1 & R).
  destruct (ok_string _ _ _ _ _ Ha R) as (m2 & H2 & R2).
  apply ok_comma in R2. destruct R2 as (m3 & H3 & R3).
  apply reads_cons_inv in R3. destruct R3 as (bl & m & B & -> & R3).
  unfold parse_format. eapply pbind_ok; [exact H1|]. eapply pbind_ok; [exact H2|]. eapply pbind_ok; [exact H3|].
  cbv beta.
  assert (St : starts_with (S_ "fromProviderState") (trim_start w (bl ++ S_ "fromProviderState" ++ m)) = true).
  { apply starts_with_spec. exists m. change (S_ "fromProviderState" ++ m) with (102 :: S_ "romProviderState" ++ m).
    rewrite trim_start_app; [reflexivity|exact B|reflexivity]. }
  rewrite St. eapply pbind_ok with (a := tt) (m := m).
  - unfold skip_token. rewrite (next_state _ _ _ _ _ _ _ B F R3). reflexivity.
  - eapply pbind_ok; [apply (ok_from_state _ _ _ _ _ _ F R3)|]. reflexivity.
Qed.

Definition m_all (v : str) (t : value_type) (rl : rule + str) (g : option generator) : mresult := (v, t, rl, g).

Lemma number_tokens b a r : Forall blank b -> number_word true a -> stop r ->
  next junk (b ++ a ++ r) = Some (TDecimal, a, r) \/
  exists k i m x, num_kind k /\ next junk (b ++ a ++ r) = Some (k, i, m) /\ with_fraction junk i m = Some (a, x, r).
Proof.
  intros B [I0|D] St.
  - right. destruct (next_int b a r B I0 St) as (k & K & E). exists k, a, r, false. split; [exact K|]. split; [exact E|].
    unfold with_fraction. pose proof (stop_dot r St) as Sd. destruct r as [|c r]; [reflexivity|]. rewrite Sd. reflexivity.
  - destruct (next_dec b a r B D St) as [E|(k & i & m & K & E & W)]; [left; exact E|].
    right. exists k, i, m, true. auto.
Qed.

Lemma ok_matcher ws v t rl g s r : matcher w true ws v t rl g -> reads ws s r -> stop r ->
  parse_matching_rule junk w s = Some (m_all v t rl g, r).
Proof.
  intros M R St. unfold parse_matching_rule, m_all.
  (* the first word is followed by a comma *)
  assert (First : forall (name : string) ws0 m, Forall letter (S_ name) -> S_ name <> [] -> word_tok (S_ name) = TId ->
     reads (S_ name :: S_ "," :: ws0) m r -> exists m', next junk m = Some (TId, S_ name, m') /\ reads (S_ "," :: ws0) m' r).
  { intros name ws0 m F Hne Ht R0. apply reads_cons_inv in R0. destruct R0 as (b & m' & B & -> & R0).
    exists m'. split; [|exact R0]. rewrite next_word; [rewrite Ht; reflexivity|exact B|exact Hne|exact F|].
    apply stop_comma in R0. exact R0. }
  destruct M as [ws v t g V|ws v t g V|a u b v Ha Hb|a u b v Ha Hb|a v Ha|a v Ha Sv|a Ha|a Ha|a Ha|a Ha
    |ws v t g F|ws v t g F|ws v t g F|k rl g a f b v Hk Ha Hb|k rl a f x ws v t g Hk Ha Hx F|a v Ha];
    cbn [app] in R.
  - apply First in R; [|repeat constructor|discriminate|reflexivity]. destruct R as (m & -> & R).
    change (str_eqb (S_ "equalTo") (S_ "equalTo")) with true. cbv iota. eapply ok_with_primitive; eassumption.
  - apply First in R; [|repeat constructor|discriminate|reflexivity]. destruct R as (m & -> & R).
    change (parse_with_primitive junk RType m = Some (v, t, inl RType, g, r)). eapply ok_with_primitive; eassumption.
  - apply First in R; [|repeat constructor|discriminate|reflexivity]. destruct R as (m & -> & R).
    change (parse_two_strings junk RRegex VString m = Some (v, VString, inl (RRegex u), None, r)).
    apply ok_two_strings with a b; assumption.
  - apply First in R; [|repeat constructor|discriminate|reflexivity]. destruct R as (m & -> & R).
    change (parse_two_strings junk RContentType VUnknown m = Some (v, VUnknown, inl (RContentType u), None, r)).
    apply ok_two_strings with a b; assumption.
  - apply First in R; [|repeat constructor|discriminate|reflexivity]. destruct R as (m & -> & R).
    change (parse_include junk m = Some (v, VString, inl (RInclude v), None, r)).
    apply ok_comma in R. destruct R as (m1 & H1 & R). destruct (ok_string _ _ _ _ _ Ha R) as (m2 & H2 & R2).
    apply reads_nil_inv in R2. subst m2. unfold parse_include. eapply pbind_ok; [exact H1|]. eapply pbind_ok; [exact H2|]. reflexivity.
  - apply First in R; [|repeat constructor|discriminate|reflexivity]. destruct R as (m & -> & R).
    change (parse_semver junk w m = Some (v, VString, inl RSemver, None, r)).
    apply ok_comma in R. destruct R as (m1 & H1 & R). destruct (ok_string _ _ _ _ _ Ha R) as (m2 & H2 & R2).
    apply reads_nil_inv in R2. subst m2. unfold parse_semver. eapply pbind_ok; [exact H1|]. eapply pbind_ok; [exact H2|].
    cbv beta. rewrite Sv. reflexivity.
  - apply First in R; [|repeat constructor|discriminate|reflexivity]. destruct R as (m & -> & R).
    change (parse_boolean junk m = Some (a, VBoolean, inl RBoolean, None, r)).
    apply ok_comma in R. destruct R as (m1 & H1 & R). unfold parse_boolean. eapply pbind_ok; [exact H1|].
    apply reads_cons_inv in R. destruct R as (b & m2 & B & -> & R). apply reads_nil_inv in R. subst m2.
    eapply pbind_ok with (a := a) (m := r); [|reflexivity]. unfold expect.
    destruct Ha as [-> | ->]; (rewrite next_word; [reflexivity|exact B|discriminate|repeat constructor|exact St]).
  - apply First in R; [|repeat constructor|discriminate|reflexivity]. destruct R as (m & -> & R).
    change (parse_number junk m = Some (a, VNumber, inl RNumber, None, r)).
    apply ok_comma in R. destruct R as (m1 & H1 & R). unfold parse_number. eapply pbind_ok; [exact H1|].
    apply reads_cons_inv in R. destruct R as (b & m2 & B & -> & R). apply reads_nil_inv in R. subst m2. cbv beta.
    destruct (number_tokens b a r B Ha St) as [->|(k & i & m2 & x & K & -> & W)]; [reflexivity|].
    destruct k; try destruct K; rewrite W; reflexivity.
  - apply First in R; [|repeat constructor|discriminate|reflexivity]. destruct R as (m & -> & R).
    change (parse_integer junk m = Some (a, VInteger, inl RInteger, None, r)).
    apply ok_comma in R. destruct R as (m1 & H1 & R). unfold parse_integer. eapply pbind_ok; [exact H1|].
    apply reads_cons_inv in R. destruct R as (b & m2 & B & -> & R). apply reads_nil_inv in R. subst m2. cbv beta.
    destruct (next_int b a r B Ha St) as (k & K & ->). destruct k; try destruct K; reflexivity.
  - apply First in R; [|repeat constructor|discriminate|reflexivity]. destruct R as (m & -> & R).
    change (parse_decimal junk m = Some (a, VDecimal, inl RDecimal, None, r)).
    apply ok_comma in R. destruct R as (m1 & H1 & R). unfold parse_decimal. eapply pbind_ok; [exact H1|].
    apply reads_cons_inv in R. destruct R as (b & m2 & B & -> & R). apply reads_nil_inv in R. subst m2. cbv beta.
    destruct (number_tokens b a r B Ha St) as [->|(k & i & m2 & x & K & -> & W)]; [reflexivity|].
    destruct k; try destruct K; rewrite W; reflexivity.
  - apply First in R; [|repeat constructor|discriminate|reflexivity]. destruct R as (m & -> & R).
    change (parse_number junk m = Some (v, t, inl RNumber, Some g, r)).
    apply ok_comma in R. destruct R as (m1 & H1 & R). unfold parse_number. eapply pbind_ok; [exact H1|].
    apply reads_cons_inv in R. destruct R as (b & m2 & B & -> & R). cbv beta.
    rewrite (next_state _ _ _ _ _ _ _ B F R). eapply ok_state_or_fail; eassumption.
  - apply First in R; [|repeat constructor|discriminate|reflexivity]. destruct R as (m & -> & R).
    change (parse_integer junk m = Some (v, t, inl RInteger, Some g, r)).
    apply ok_comma in R. destruct R as (m1 & H1 & R). unfold parse_integer. eapply pbind_ok; [exact H1|].
    apply reads_cons_inv in R. destruct R as (b & m2 & B & -> & R). cbv beta.
    rewrite (next_state _ _ _ _ _ _ _ B F R). eapply ok_state_or_fail; eassumption.
  - apply First in R; [|repeat constructor|discriminate|reflexivity]. destruct R as (m & -> & R).
    change (parse_decimal junk m = Some (v, t, inl RNumber, Some g, r)).
    apply ok_comma in R. destruct R as (m1 & H1 & R). unfold parse_decimal. eapply pbind_ok; [exact H1|].
    apply reads_cons_inv in R. destruct R as (b & m2 & B & -> & R). cbv beta.
    rewrite (next_state _ _ _ _ _ _ _ B F R). eapply ok_state_or_fail; eassumption.
  - destruct Hk as [Hk|[Hk|[Hk|[]]]];
      (assert (k = k /\ rl = rl) as _ by auto);
      pose proof (f_equal (fun x => fst (fst x)) Hk) as E1; pose proof (f_equal (fun x => snd (fst x)) Hk) as E2;
      pose proof (f_equal snd Hk) as E3; cbn [fst snd] in E1, E2, E3; subst k rl g; clear Hk;
      (apply First in R; [|repeat constructor|discriminate|reflexivity]); destruct R as (m & -> & R).
    + change (parse_format junk w RTimestamp (fun f0 => GDateTime (Some f0) None) m
              = Some (v, VString, inl (RTimestamp f), Some ((fun f0 => GDateTime (Some f0) None) f), r)).
      apply ok_format with a b; assumption.
    + change (parse_format junk w RDate (fun f0 => GDate (Some f0) None) m
              = Some (v, VString, inl (RDate f), Some ((fun f0 => GDate (Some f0) None) f), r)).
      apply ok_format with a b; assumption.
    + change (parse_format junk w RTime (fun f0 => GTime (Some f0) None) m
              = Some (v, VString, inl (RTime f), Some ((fun f0 => GTime (Some f0) None) f), r)).
      apply ok_format with a b; assumption.
  - cbn [state_word] in Hx. subst x.
    destruct Hk as [Hk|[Hk|[Hk|[]]]];
      pose proof (f_equal fst Hk) as E1; pose proof (f_equal snd Hk) as E2;
      cbn [fst snd] in E1, E2; subst k rl; clear Hk;
      (apply First in R; [|repeat constructor|discriminate|reflexivity]); destruct R as (m & -> & R).
    + change (parse_format junk w RTimestamp (fun f0 => GDateTime (Some f0) None) m
              = Some (v, t, inl (RTimestamp f), Some g, r)).
      apply ok_format_state with a ws; assumption.
    + change (parse_format junk w RDate (fun f0 => GDate (Some f0) None) m = Some (v, t, inl (RDate f), Some g, r)).
      apply ok_format_state with a ws; assumption.
    + change (parse_format junk w RTime (fun f0 => GTime (Some f0) None) m = Some (v, t, inl (RTime f), Some g, r)).
      apply ok_format_state with a ws; assumption.
  - apply reads_cons_inv in R. destruct R as (b & m & B & -> & R). rewrite next_dollar by exact B.
    destruct (ok_string _ _ _ _ _ Ha R) as (m2 & H2 & R2). apply reads_nil_inv in R2. subst m2.
    unfold parse_reference. eapply pbind_ok; [exact H2|]. reflexivity.
Qed.

Lemma ok_brackets {A} (p : parser A) ws x s r :
  (forall s r, reads ws s r -> stop r -> p s = Some (x, r)) ->
  reads (in_brackets ws) s r -> brackets junk p s = Some (x, r).
Proof.
  intros Hp R. unfold in_brackets in R. apply ok_left in R. destruct R as (m1 & H1 & R).
  apply reads_app_inv in R. destruct R as (m2 & R2 & R3). pose proof (stop_right _ _ _ R3) as St.
  apply ok_right in R3. destruct R3 as (m3 & H3 & R3). apply reads_nil_inv in R3. subst m3.
  unfold brackets. eapply pbind_ok; [exact H1|]. eapply pbind_ok; [apply (Hp _ _ R2 St)|].
  eapply pbind_ok; [exact H3|]. reflexivity.
Qed.

Lemma reads_length ws s r : reads ws s r -> (length (concat ws) + length r <= length s)%nat.
Proof.
  intro H. induction H as [s|b x ws s r B H IH]; cbn [concat]; [cbn; lia|].
  rewrite !app_length. lia.
Qed.
(** Enough fuel: the nesting of definitions is less than the number of characters of their words. *)
Lemma ok_definition v ws d : one_def w true v ws d -> forall s r f, (length (concat ws) <= f)%nat ->
  reads ws s r -> definition_exp junk w v f s = Some (d, r).
Proof.
  intro H. induction H as [ws v0 t rl g M|ws v0 t g V|ws d H IH|ws d H IH|a D L|a D L]; intros s r f Hf R;
    (destruct f as [|f]; [exfalso; cbn in Hf; lia|]); cbn [definition_exp];
    apply reads_cons_inv in R; destruct R as (b & m & B & -> & R);
    pose proof (stop_left _ _ _ R) as St;
    (rewrite next_word; [|exact B|discriminate|repeat constructor|exact St]).
  - change (word_tok (S_ "matching")) with TMatching. cbv iota.
    eapply pbind_ok with (a := m_all v0 t rl g); [|reflexivity]. unfold parse_matching.
    apply ok_brackets with ws; [|exact R]. intros s0 r0 R0 S0. eapply ok_matcher; eassumption.
  - change (word_tok (S_ "notEmpty")) with TNotEmpty. cbv iota.
    eapply pbind_ok with (a := (v0, t, g)); [|reflexivity]. unfold parse_not_empty.
    apply ok_brackets with ws; [|exact R]. intros s0 r0 R0 S0. eapply ok_value; eassumption.
  - change (word_tok (S_ "eachKey")) with TEachKey. cbv iota.
    eapply pbind_ok with (a := d); [|reflexivity].
    apply ok_brackets with ws; [|exact R]. intros s0 r0 R0 S0. apply IH; [|exact R0].
    unfold in_brackets in Hf. cbn [concat] in Hf. rewrite !app_length, concat_app, app_length in Hf. cbn in Hf. lia.
  - change (word_tok (S_ "eachValue")) with TEachValue. cbv iota.
    eapply pbind_ok with (a := d); [|reflexivity].
    apply ok_brackets with ws; [|exact R]. intros s0 r0 R0 S0. apply IH; [|exact R0].
    unfold in_brackets in Hf. cbn [concat] in Hf. rewrite !app_length, concat_app, app_length in Hf. cbn in Hf. lia.
  - change (word_tok (S_ "atLeast")) with TAtLeast. cbv iota.
    eapply pbind_ok with (a := dec_value a 0); [|reflexivity]. unfold parse_length_param.
    apply ok_brackets with [a]; [|exact R]. intros s0 r0 R0 S0.
    apply reads_cons_inv in R0. destruct R0 as (b0 & m0 & B0 & -> & R0). apply reads_nil_inv in R0. subst m0.
    rewrite next_digits by assumption. reflexivity.
  - change (word_tok (S_ "atMost")) with TAtMost. cbv iota.
    eapply pbind_ok with (a := dec_value a 0); [|reflexivity]. unfold parse_length_param.
    apply ok_brackets with [a]; [|exact R]. intros s0 r0 R0 S0.
    apply reads_cons_inv in R0. destruct R0 as (b0 & m0 & B0 & -> & R0). apply reads_nil_inv in R0. subst m0.
    rewrite next_digits by assumption. reflexivity.
Qed.
End Complete.
