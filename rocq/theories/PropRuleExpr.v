(** C74: matching rule definition expressions. *)
From Coq Require Import String List Arith NArith ZArith Lia Bool.
From Verif Require Import Base PathExp Json MatchingRules Expr Generators RuleExpr SpecRuleExpr
  RuleExprProofs RuleExprProofs2 RuleExprProofs3.
Import ListNotations.
Open Scope N_scope.

(** * Several definitions together *)
Lemma vt_merge_spec a b : (vt_merge a b = a \/ vt_merge a b = b) /\ rank a <= rank (vt_merge a b) /\ rank b <= rank (vt_merge a b).
Proof. destruct a, b; cbn; repeat split; try lia; auto. Qed.
Lemma is_nil_spec {A} (l : list A) : is_nil l = true <-> l = [].
Proof. destruct l; split; try discriminate; auto. Qed.

Lemma first_or_cons {A} (none x : A) l : x <> none -> first_or none (x :: l) x.
Proof. intro H. left. constructor. exact H. Qed.
Lemma first_or_skip {A} (none : A) l y : first_or none l y -> first_or none (none :: l) y.
Proof.
  intros [H|[F ->]].
  - left. apply ft_later; [intro X; apply X; reflexivity|exact H].
  - right. split; [constructor; auto|reflexivity].
Qed.
(** Replacing the first two entries by the first of them that counts. *)
Lemma first_or_merge {A} (none a b : A) l y c : (a <> none -> c = a) -> (a = none -> c = b) ->
  {a = none} + {a <> none} -> first_or none (c :: l) y -> first_or none (a :: b :: l) y.
Proof.
  intros H1 H2 [E|E] H.
  - subst a. rewrite (H2 eq_refl) in H. apply first_or_skip. exact H.
  - rewrite (H1 E) in H. destruct H as [H|[F _]].
    + left. inversion H as [x l' Hx|x y' l' Hx Hl]; subst; [constructor; exact Hx|contradiction].
    + exfalso. inversion F; subst. congruence.
Qed.

Lemma together_merge ds : forall d, together (d :: ds) (fold_left x_merge ds d).
Proof.
  induction ds as [|e ds IH]; intro d.
  - cbn [fold_left]. constructor; cbn [map].
    + destruct (x_value d) as [|c s] eqn:E.
      * right. split; [constructor; auto|reflexivity].
      * left. constructor. discriminate.
    + destruct (x_gen d) eqn:E.
      * left. constructor. discriminate.
      * right. split; [constructor; auto|reflexivity].
    + cbn. rewrite app_nil_r. reflexivity.
    + left. reflexivity.
    + intros t [<-|[]]. lia.
  - cbn [fold_left]. destruct (IH (x_merge d e)) as [V G R T M].
    cbn [map] in *. constructor; cbn [map].
    + eapply first_or_merge; [| |destruct (x_value d); [left; reflexivity|right; discriminate]|exact V].
      * intro H. cbn [x_merge x_value]. destruct (x_value d); [congruence|reflexivity].
      * intros H. cbn [x_merge x_value]. rewrite H. reflexivity.
    + eapply first_or_merge; [| |destruct (x_gen d); [right; discriminate|left; reflexivity]|exact G].
      * intro H. cbn [x_merge x_gen]. destruct (x_gen d); [reflexivity|congruence].
      * intros H. cbn [x_merge x_gen]. rewrite H. reflexivity.
    + rewrite R. cbn [concat x_merge x_rules]. rewrite app_assoc. reflexivity.
    + destruct T as [T|T]; [|right; right; exact T].
      destruct (vt_merge_spec (x_type d) (x_type e)) as [[E|E] _]; cbn [x_merge x_type] in T; rewrite E in T.
      * left. exact T.
      * right. left. exact T.
    + destruct (vt_merge_spec (x_type d) (x_type e)) as [_ [L1 L2]].
      assert (L3 : rank (vt_merge (x_type d) (x_type e)) <= rank (x_type (fold_left x_merge ds (x_merge d e)))).
      { apply M. left. reflexivity. }
      intros t [<-|[<-|I0]]; [lia|lia|]. apply M. right. exact I0.
Qed.
Lemma expr_merge v ds : Forall (fun d => x_expr d = v) ds -> forall d, x_expr d = v -> x_expr (fold_left x_merge ds d) = v.
Proof.
  intro F. induction F as [|e ds He F IH]; intros d Hd; [exact Hd|].
  cbn [fold_left]. apply IH. cbn [x_merge x_expr]. rewrite Hd, He, str_eqb_refl, orb_true_r.
  destruct (is_nil v); reflexivity.
Qed.
Lemma one_def_expr w st v ws d : one_def w st v ws d -> x_expr d = v.
Proof. intros []; reflexivity. Qed.
Lemma all_defs_expr w st v ws ds : all_defs w st v ws ds -> Forall (fun d => x_expr d = v) ds.
Proof. induction 1; constructor; eauto using one_def_expr. Qed.

Section C74.
Variable junk : str -> nat.
Variable w : world.

Lemma definition_rest_sound v f depth : forall d s d', definition_rest junk w v f depth d s = Some d' ->
  exists r, (Forall blank r \/ exists x, next junk r = Some (TErr, x, [])) /\
  ((reads [] s r /\ d' = d) \/
   exists ws ds, all_defs w false v ws ds /\ reads (S_ "," :: ws) s r /\ d' = fold_left x_merge ds d).
Proof.
  induction f as [|f IH]; intros d s d' H; cbn [definition_rest] in H; [discriminate|].
  destruct (next junk s) as [[[k a] m]|] eqn:E.
  2:{ injection H as <-. apply next_none in E. exists s. split; [left; exact E|]. left. split; [constructor|reflexivity]. }
  destruct k; try discriminate.
  - destruct (definition_exp junk w v depth m) as [[e m2]|] eqn:Ed; [|discriminate].
    destruct (next_reads _ _ _ _ _ E) as [R K]. cbn [tok_ok] in K. subst a.
    destruct (definition_exp_sound _ _ _ _ _ _ _ Ed) as (ws & R1 & O).
    destruct (IH _ _ _ H) as (r & Hr & Hm). exists r. split; [exact Hr|]. right.
    destruct Hm as [[R2 ->]|(ws2 & ds & A & R2 & ->)].
    + exists ws, [e]. split; [constructor; exact O|]. split; [|reflexivity].
      apply reads_nil_inv in R2. subst m2. eapply reads_push; eassumption.
    + exists (ws ++ [S_ ","] ++ ws2), (e :: ds). split; [apply ad_more; assumption|]. split; [|reflexivity].
      eapply reads_push; [exact R|]. eapply reads_app; [exact R1|]. exact R2.
  - destruct (is_nil m) eqn:En; [|discriminate]. apply is_nil_spec in En. subst m. injection H as <-.
    exists s. split; [right; eexists; exact E|]. left. split; [constructor|reflexivity].
Qed.

(** ** Whatever is accepted is a definition of the grammar, and means what the grammar says *)
Theorem C74_only_definitions v d : parse_matcher_def junk w v = Some d ->
  exists ws ds tail, all_defs w false v ws ds /\ reads ws v tail /\
    (Forall blank tail \/ exists x, next junk tail = Some (TErr, x, [])) /\
    together ds d /\ x_expr d = v.
Proof.
  intro H. assert (H' : matching_definition junk w v = Some d).
  { unfold parse_matcher_def in H. destruct v; [discriminate|exact H]. }
  clear H. unfold matching_definition in H'.
  destruct (definition_exp junk w v (S (length v)) v) as [[e m]|] eqn:Ed; [|discriminate].
  destruct (definition_exp_sound _ _ _ _ _ _ _ Ed) as (ws & R1 & O).
  destruct (definition_rest_sound _ _ _ _ _ _ H') as (r & Hr & Hm).
  destruct Hm as [[R2 ->]|(ws2 & ds & A & R2 & ->)].
  - apply reads_nil_inv in R2. subst m. exists ws, [e], r.
    split; [constructor; exact O|]. split; [exact R1|]. split; [exact Hr|]. split; [apply (together_merge [])|].
    eapply one_def_expr; exact O.
  - exists (ws ++ [S_ ","] ++ ws2), (e :: ds), r.
    split; [apply ad_more; assumption|]. split; [eapply reads_app; [exact R1|exact R2]|]. split; [exact Hr|].
    split; [apply together_merge|]. apply expr_merge; [eapply all_defs_expr; exact A|eapply one_def_expr; exact O].
Qed.

Lemma definition_rest_complete v depth ws ds : all_defs w true v ws ds -> forall acc s r f,
  (length (concat ws) <= depth)%nat -> reads (S_ "," :: ws) s r -> Forall blank r -> (length ds < f)%nat ->
  definition_rest junk w v f depth acc s = Some (fold_left x_merge ds acc).
Proof.
  assert (End : forall r f acc, Forall blank r -> (0 < f)%nat -> definition_rest junk w v f depth acc r = Some acc).
  { intros r f acc B Hf. destruct f as [|f]; [lia|]. cbn [definition_rest]. unfold next. rewrite skip_blank_all by exact B. reflexivity. }
  intro A. induction A as [ws d O|ws d ws' ds O A IH]; intros acc s r f Hd R B Hf;
    (destruct f as [|f]; [lia|]); cbn [definition_rest];
    apply reads_cons_inv in R; destruct R as (b & m & Bb & -> & R); rewrite next_comma by exact Bb; cbv iota.
  - rewrite (ok_definition _ _ _ _ _ O m r depth Hd R). apply End; [exact B|cbn in Hf; lia].
  - apply reads_app_inv in R. destruct R as (m2 & R1 & R2). rewrite concat_app, app_length in Hd.
    rewrite (ok_definition _ _ _ _ _ O m m2 depth) by (lia || assumption).
    apply (IH _ _ r); [|exact R2|exact B|cbn in Hf; lia].
    cbn [app concat] in Hd. rewrite app_length in Hd. lia.
Qed.
Lemma all_defs_length v ws ds : all_defs w true v ws ds -> (length ds <= length (concat ws))%nat.
Proof.
  assert (P : forall ws d, one_def w true v ws d -> (1 <= length (concat ws))%nat).
  { intros ws0 d []; cbn; lia. }
  intro A. induction A as [ws d O|ws d ws' ds O A IH].
  - cbn. apply P in O. exact O.
  - rewrite concat_app, app_length. cbn [app concat]. rewrite app_length. apply P in O. cbn. lia.
Qed.

(** ** Everything that is documented is accepted, and means what the grammar says *)
Theorem C74_documented_language v ws ds : all_defs w true v ws ds -> spaced ws v ->
  exists d, parse_matcher_def junk w v = Some d /\ together ds d /\ x_expr d = v.
Proof.
  intros A (r & R & B). pose proof (reads_length _ _ _ R) as Ln. pose proof (all_defs_length _ _ _ A) as Lc.
  assert (Hv : (1 <= length v)%nat).
  { assert (1 <= length ds)%nat by (destruct A; cbn; lia). lia. }
  assert (E : parse_matcher_def junk w v = matching_definition junk w v) by (destruct v; [cbn in Hv; lia|reflexivity]).
  rewrite E. unfold matching_definition.
  pose proof (all_defs_expr _ _ _ _ _ A) as Fx.
  destruct A as [ws d O|ws d ws' ds O A].
  - rewrite (ok_definition _ _ _ _ _ O v r) by (lia || assumption).
    exists d. split; [|split; [apply (together_merge [])|inversion Fx; assumption]].
    cbn [definition_rest]. unfold next. rewrite skip_blank_all by exact B. reflexivity.
  - apply reads_app_inv in R. destruct R as (m & R1 & R2). rewrite concat_app, app_length in Ln. cbn [app concat] in Ln.
    rewrite app_length in Ln.
    assert (Fe : (length (concat ws) <= S (length v))%nat) by lia.
    rewrite (ok_definition _ _ _ _ _ O v m _ Fe R1).
    exists (fold_left x_merge ds d). split; [|split; [apply together_merge|]].
    + apply (definition_rest_complete _ _ _ _ A _ _ r); [lia|exact R2|exact B|]. pose proof (all_defs_length _ _ _ A). lia.
    + inversion Fx as [|? ? Fh Ft]. apply expr_merge; [exact Ft|exact Fh].
Qed.

(** ** So a text of the documented language can be read in one way only *)
Theorem C74_one_reading v ws ds ws' ds' d d' :
  all_defs w true v ws ds -> spaced ws v -> all_defs w true v ws' ds' -> spaced ws' v ->
  together ds d -> together ds' d' ->
  x_rules d = x_rules d' /\ (forall y, first_or [] (map x_value ds) y -> first_or [] (map x_value ds') y).
Proof.
  intros A S1 A' S2 T T'.
  assert (Fdet : forall {X} (none : X) l y z, first_or none l y -> first_or none l z -> y = z).
  { intros X none l y z Hy Hz.
    assert (One : forall l a b, first_that (fun x => x <> none) l a -> first_that (fun x => x <> none) l b -> a = b).
    { intros l0 a b Ha. revert b. induction Ha as [x l0 Hx|x y0 l0 Hx Hl IH]; intros b Hb; inversion Hb; subst; auto; contradiction. }
    assert (No : forall l a, first_that (fun x => x <> none) l a -> Forall (eq none) l -> False).
    { intros l0 a Ha. induction Ha as [x l0 Hx|x y0 l0 Hx Hl IH]; intro F; inversion F; subst; auto. }
    destruct Hy as [Hy|[Fy ->]], Hz as [Hz|[Fz ->]]; auto.
    - eapply One; eassumption.
    - exfalso. eapply No; eassumption.
    - exfalso. eapply No; eassumption. }
  destruct (C74_documented_language _ _ _ A S1) as (e & P & Te & _).
  destruct (C74_documented_language _ _ _ A' S2) as (e' & P' & Te' & _).
  assert (e = e') by congruence. subst e'. split.
  - rewrite (tg_rules _ _ T), (tg_rules _ _ T'). rewrite <- (tg_rules _ _ Te), <- (tg_rules _ _ Te'). reflexivity.
  - intros y Hy. rewrite (Fdet _ _ _ _ _ Hy (tg_value _ _ Te)). apply (tg_value _ _ Te').
Qed.

(** ** A text counts as a definition exactly when it begins with one of four of the six words *)
Theorem C74_is_definition v : is_matcher_def junk v = true <->
  exists b k r, v = b ++ k ++ r /\ Forall blank b /\ In k [S_ "matching"; S_ "notEmpty"; S_ "eachKey"; S_ "eachValue"] /\
    match r with [] => True | c :: _ => ascii_alpha c = false end.
Proof.
  split.
  - intro H. unfold is_matcher_def, next in H. destruct (skip_blank_split v) as (b & B & E & _).
    destruct (skip_blank v) as [|c s]; [discriminate|].
    unfold lex_at in H.
    destruct (c =? 40); [discriminate|]. destruct (c =? 41); [discriminate|]. destruct (c =? 44); [discriminate|].
    destruct (c =? 36); [discriminate|]. destruct (c =? 39); [destruct (str_lit false s) as [[? ?]|]; discriminate|].
    destruct (ascii_alpha c).
    + pose proof (span_split ascii_alpha (c :: s)) as Sp. destruct (span ascii_alpha (c :: s)) as [x y].
      destruct Sp as (Ex & F & St). exists b, x, y. rewrite E, Ex. split; [reflexivity|]. split; [exact B|]. split; [|exact St].
      pose proof (word_tok_ok x F) as K. destruct (word_tok x); try discriminate; cbn [tok_ok] in K; subst x; cbn; auto.
    + destruct (is_digit c).
      { destruct (span is_digit (c :: s)) as [x y]. destruct (decimal_lit x y) as [[? ?]|]; [discriminate|].
        unfold num_tok in H. destruct (dec_value x 0 <? two64); discriminate. }
      destruct (c =? 45).
      { destruct (span is_digit s) as [[|? ?] y]; [discriminate|]. destruct (decimal_lit _ y) as [[? ?]|]; [discriminate|].
        unfold int_tok in H. match type of H with context [?a <=? ?b] => destruct (a <=? b) end; discriminate. }
      destruct (c =? 46); [|discriminate].
      destruct (span is_digit s) as [[|? ?] y]; discriminate.
  - intros (b & k & r & -> & B & Hk & St).
    assert (Hl : Forall letter k /\ k <> [] /\
       (word_tok k = TMatching \/ word_tok k = TNotEmpty \/ word_tok k = TEachKey \/ word_tok k = TEachValue)).
    { destruct Hk as [<-|[<-|[<-|[<-|[]]]]]; (split; [repeat constructor|split; [discriminate|]]).
      - left; reflexivity. - right; left; reflexivity. - right; right; left; reflexivity. - right; right; right; reflexivity. }
    destruct Hl as (F & Hne & Ht). destruct k as [|c k]; [congruence|]. inversion F as [|? ? Hc F']; subst.
    unfold is_matcher_def. cbn [app]. rewrite next_at by (auto using letters_not_blank).
    unfold lex_at. pose proof (alpha_range c Hc) as Rg.
    destruct (N.eqb_spec c 40); [lia|]. destruct (N.eqb_spec c 41); [lia|]. destruct (N.eqb_spec c 44); [lia|].
    destruct (N.eqb_spec c 36); [lia|]. destruct (N.eqb_spec c 39); [lia|]. unfold letter in Hc. rewrite Hc.
    change (c :: k ++ r) with ((c :: k) ++ r). rewrite span_app; [|exact F|exact St].
    destruct Ht as [-> | [-> | [-> | ->]]]; reflexivity.
Qed.
End C74.

(** ** The types of values are ordered, and merging takes the larger one *)
Theorem C74_merging_types a b c :
  vt_merge a b = vt_merge b a /\ vt_merge a (vt_merge b c) = vt_merge (vt_merge a b) c /\ vt_merge a a = a /\
  rank (vt_merge a b) = N.max (rank a) (rank b).
Proof. destruct a, b, c; repeat split; reflexivity. Qed.

(** ** An example: a regex with escapes, a provider state, a reference, nested definitions, blanks *)
Definition example_text : str :=
  S_ "matching( regex,'\\d\n','12') ,eachValue(matching(type, fromProviderState('e',-12.5))), atMost(3),matching($'ref')".
Definition example_words : list str :=
  [S_ "matching"; S_ "("; S_ "regex"; S_ ","; S_ "'\\d\n'"; S_ ","; S_ "'12'"; S_ ")"; S_ ",";
   S_ "eachValue"; S_ "("; S_ "matching"; S_ "("; S_ "type"; S_ ","; S_ "fromProviderState"; S_ "("; S_ "'e'"; S_ ","; S_ "-12.5";
   S_ ")"; S_ ")"; S_ ")"; S_ ","; S_ "atMost"; S_ "("; S_ "3"; S_ ")"; S_ ","; S_ "matching"; S_ "("; S_ "$"; S_ "'ref'"; S_ ")"].
Definition example_defs (v : str) : list xdef :=
  [mkX (S_ "12") VString [inl (XRule (RRegex (92 :: S_ "d" ++ [10])))] None v;
   mkX [] VUnknown [inl (XEachValue (mkX (S_ "-12.5") VDecimal [inl (XRule RType)]
                                       (Some (GProviderState (S_ "e") (Some DDecimal))) v))] None v;
   mkX [] VUnknown [inl (XRule (RMaxType 3))] None v;
   mkX (S_ "ref") VUnknown [inr (S_ "ref")] None v].

Lemma not_ends c s : match rev s with [] => True | x :: _ => x <> c end -> ~ ends_in c s.
Proof. intros H [a ->]. rewrite rev_app_distr in H. cbn in H. congruence. Qed.
Lemma string_word_plain raw text : ~ In 39 raw -> match rev raw with [] => True | x :: _ => x <> 92 end ->
  unescaped raw text -> string_word true ([39] ++ raw ++ [39]) text.
Proof.
  intros H1 H2 H3. exists raw. split; [|exact H3]. split; [reflexivity|]. split; [exact H1|]. apply not_ends. exact H2.
Qed.

Example C74_example w v : all_defs w true v example_words (example_defs v) /\ spaced example_words example_text.
Proof.
  split.
  - unfold example_defs.
    change example_words with
      ((S_ "matching" :: in_brackets [S_ "regex"; S_ ","; S_ "'\\d\n'"; S_ ","; S_ "'12'"]) ++ [S_ ","] ++
       ((S_ "eachValue" :: in_brackets (S_ "matching" :: in_brackets (S_ "type" :: S_ "," :: S_ "fromProviderState" ::
            ([S_ "("; S_ "'e'"; S_ ","] ++ [S_ "-12.5"] ++ [S_ ")"])))) ++ [S_ ","] ++
        ((S_ "atMost" :: in_brackets [S_ "3"]) ++ [S_ ","] ++
         (S_ "matching" :: in_brackets [S_ "$"; S_ "'ref'"])))).
    apply ad_more; [|apply ad_more; [|apply ad_more; [|apply ad_one]]].
    + apply od_matching with (r := inl _). apply ma_regex.
      * apply (string_word_plain (S_ "\\d\n")); [cbn; intuition discriminate|discriminate|].
        cbn. apply un_backslash. apply un_char; [discriminate|]. apply un_n. constructor.
      * apply (string_word_plain (S_ "12")); [cbn; intuition discriminate|discriminate|].
        cbn. repeat (apply un_char; [discriminate|]). constructor.
    + apply od_each_value. apply od_matching with (r := inl _). apply ma_type. apply va_state. apply fs_intro.
      * apply (string_word_plain (S_ "e")); [cbn; intuition discriminate|discriminate|].
        cbn. repeat (apply un_char; [discriminate|]). constructor.
      * apply pr_dec. exists (S_ "-12"), (S_ "5"). split; [|split; [reflexivity|]].
        -- right. exists (S_ "12"). split; [reflexivity|]. split; [|vm_compute; discriminate].
           split; [discriminate|]. repeat constructor; vm_compute; discriminate.
        -- intros _. split; [discriminate|]. repeat constructor; vm_compute; discriminate.
      * reflexivity.
    + apply (od_at_most w true v (S_ "3")); [|reflexivity]. split; [discriminate|]. repeat constructor; vm_compute; discriminate.
    + apply od_matching with (r := inr _). apply ma_reference.
      apply (string_word_plain (S_ "ref")); [cbn; intuition discriminate|discriminate|].
      cbn. repeat (apply un_char; [discriminate|]). constructor.
  - exists []. split; [|constructor]. unfold example_words.
    assert (St : forall x ws s t r, t = x ++ s -> reads ws s r -> reads (x :: ws) t r).
    { intros x ws s t r -> R. change (x ++ s) with ([] ++ x ++ s). constructor; [constructor|exact R]. }
    assert (Bl : forall x ws s t r, t = 32 :: x ++ s -> reads ws s r -> reads (x :: ws) t r).
    { intros x ws s t r -> R. change (32 :: x ++ s) with ([32] ++ x ++ s). constructor; [repeat constructor|exact R]. }
    unfold example_text.
    repeat first [eapply St; [reflexivity|] | eapply Bl; [reflexivity|] | apply reads_nil].
Qed.

(** ** What is accepted beyond the documented language, or read in a surprising way *)
(** A character that starts no word is ignored at the end of the text. *)
Theorem C74_why_junk_at_the_end junk w : junk (S_ "?") = 0%nat ->
  parse_matcher_def junk w (S_ "notEmpty('x')?") =
  Some (mkX (S_ "x") VString [inl (XRule RNotEmpty)] None (S_ "notEmpty('x')?")).
Proof. intro H. vm_compute in H. vm_compute. rewrite ?H. reflexivity. Qed.
(** The rule of [matching(decimal, fromProviderState(...))] accepts whole numbers too. *)
Theorem C74_why_decimal_from_state junk w : exists d,
  parse_matcher_def junk w (S_ "matching(decimal,fromProviderState('e',1.5))") = Some d /\ x_rules d = [inl (XRule RNumber)] /\
  exists d', parse_matcher_def junk w (S_ "matching(decimal,1.5)") = Some d' /\ x_rules d' = [inl (XRule RDecimal)].
Proof.
  eexists. split; [vm_compute; reflexivity|]. split; [reflexivity|]. eexists. split; [vm_compute; reflexivity|]. reflexivity.
Qed.
(** Escapes are replaced in the value of a regex, but not in the value of a type matcher. *)
Theorem C74_why_escapes junk w : exists d d',
  parse_matcher_def junk w (S_ "matching(include,'a\tb')") = Some d /\ x_value d = S_ "a" ++ [9] ++ S_ "b" /\
  parse_matcher_def junk w (S_ "matching(type,'a\tb')") = Some d' /\ x_value d' = S_ "a\tb".
Proof. eexists. eexists. split; [vm_compute; reflexivity|]. split; [reflexivity|]. split; [vm_compute; reflexivity|]. reflexivity. Qed.
(** A string that ends in a backslash runs on to the next quote. *)
Theorem C74_why_no_backslash_at_the_end junk w :
  parse_matcher_def junk w (S_ "matching(regex,'a\\','b')") = None /\
  exists d, parse_matcher_def junk w (S_ "matching(include,'a\\')") = Some d /\ x_value d = S_ "a\".
Proof. split; [|eexists; split]; vm_compute; reflexivity. Qed.
(** [atLeast] and [atMost] make a definition, but a text that begins with them is not recognised as one. *)
Theorem C74_why_at_least junk w : exists d,
  parse_matcher_def junk w (S_ "atLeast(1)") = Some d /\ x_rules d = [inl (XRule (RMinType 1))] /\
  is_matcher_def junk (S_ "atLeast(1)") = false.
Proof. eexists. split; [vm_compute; reflexivity|]. split; reflexivity. Qed.
(** Numbers that do not fit in 64 bits are refused. *)
Theorem C74_why_64_bits junk w :
  parse_matcher_def junk w (S_ "matching(number,18446744073709551616)") = None /\
  exists d, parse_matcher_def junk w (S_ "matching(number,18446744073709551615)") = Some d.
Proof. split; [|eexists]; vm_compute; reflexivity. Qed.
