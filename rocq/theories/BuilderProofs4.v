(** Proofs about the builders of the consumer DSL: headers. *)
From Coq Require Import Ascii String List Arith NArith ZArith Lia Bool Permutation Sorted.
From Verif Require Import Base PathExp PathExpProofs SpecPath PropPath Json Text TextProofs MatchingRules RulesV2 SpecRules Matchers JsonCompare SpecMatch SpecValues
  CompareProofs CompareProofs2 SpecBody BodyProofs Headers Query ContentType SpecXml SpecQuery SpecHeaders SpecHttp Http QueryProofs PropHttp PropHeaders Pattern SpecPattern PatternProofs PropPattern
  SpecParams PropParams PropParams2 Generators Builder SpecBuilder BuilderProofs BuilderProofs2 BuilderProofs3.
From Coq Require Import ZifyBool ZifyN ZifyNat.
Import ListNotations.
Open Scope N_scope.
Local Opaque show_N.

(** ** Rule paths in lower case *)
Section Lower.
Variable w : world.
Notation lower := (to_lower w).
Lemma lower_map : forall s, ascii_text s -> lower s = map ascii_lower_char s.
Proof. intros s A. unfold to_lower. apply lower_ascii, A. Qed.
Lemma ident_start_low : forall c, ident_start (ascii_lower_char c) = ident_start c.
Proof.
  intro c. unfold ascii_lower_char. destruct ((65 <=? c) && (c <=? 90)) eqn:E; [|reflexivity]. apply andb_true_iff in E as [E1 E2]. apply N.leb_le in E1, E2.
  unfold ident_start, ascii_alpha, is_upper, is_lower. apply eq_true_iff_eq. rewrite !orb_true_iff, !andb_true_iff, !N.leb_le, !N.eqb_eq. lia.
Qed.
Lemma ident_rest_low : forall c, ident_rest (ascii_lower_char c) = ident_rest c.
Proof.
  intro c. unfold ident_rest. rewrite ident_start_low. unfold ascii_lower_char. destruct ((65 <=? c) && (c <=? 90)) eqn:E; [|reflexivity].
  apply andb_true_iff in E as [E1 E2]. apply N.leb_le in E1, E2.
  unfold ident_start, ascii_alpha, is_upper, is_lower, is_digit. apply eq_true_iff_eq. rewrite !orb_true_iff, !andb_true_iff, !N.leb_le, !N.eqb_eq. lia.
Qed.
Lemma ident_low : forall n, ident_match (map ascii_lower_char n) = ident_match n.
Proof.
  intros [|c n]; [reflexivity|]. cbn [map ident_match]. rewrite ident_start_low. f_equal.
  induction n as [|d n IH]; [reflexivity|]. cbn [map forallb]. rewrite ident_rest_low, IH. reflexivity.
Qed.
Lemma escape_low : forall n, map ascii_lower_char (escape_key n) = escape_key (map ascii_lower_char n).
Proof.
  induction n as [|c n IH]; [reflexivity|]. cbn [map escape_key].
  assert (((ascii_lower_char c =? 92) || (ascii_lower_char c =? 39)) = ((c =? 92) || (c =? 39))) as ->.
  { unfold ascii_lower_char. destruct ((65 <=? c) && (c <=? 90)) eqn:E; [|reflexivity]. apply andb_true_iff in E as [E1 E2]. apply N.leb_le in E1, E2. apply eq_true_iff_eq. rewrite !orb_true_iff, !N.eqb_eq. lia. }
  destruct ((c =? 92) || (c =? 39)); cbn [map]; rewrite IH; reflexivity.
Qed.
Lemma key_low : forall n, map ascii_lower_char (obj_key_for_path n) = obj_key_for_path (map ascii_lower_char n).
Proof.
  intro n. unfold obj_key_for_path. rewrite ident_low. destruct (ident_match n); [reflexivity|]. rewrite !map_app, escape_low. reflexivity.
Qed.
Lemma key_ascii : forall n, ascii_text n -> ascii_text (obj_key_for_path n).
Proof.
  intros n A c J. unfold obj_key_for_path in J. destruct (ident_match n).
  - destruct J as [<-|J]; [lia | exact (A c J)].
  - apply in_app_or in J as [J|J]; [cbn in J; intuition subst; lia|]. apply in_app_or in J as [J|J]; [|cbn in J; intuition subst; lia].
    clear -A J. induction n as [|d n IH]; [destruct J|]. cbn [escape_key] in J. assert (d < 128) as Ld by (apply A; left; reflexivity).
    assert (In c (escape_key n) -> c < 128) as IH' by (intro K; apply IH; [intros z Jz; apply A; right; exact Jz | exact K]).
    destruct ((d =? 92) || (d =? 39)); cbn [In] in J; intuition subst; lia.
Qed.
Lemma lower_named : forall n, ascii_text n -> to_lower_case lower (from_tokens [TRoot; TField n]) = from_tokens [TRoot; TField (lower n)].
Proof.
  intros n A. unfold to_lower_case, from_tokens. cbn [path_tokens path_expr map build_expr token_expr]. rewrite !app_nil_r. f_equal.
  rewrite lower_map.
  - rewrite map_app, key_low, (lower_map n A). reflexivity.
  - intros c J. apply in_app_or in J as [J|J]; [cbn in J; intuition subst; lia | exact (key_ascii n A c J)].
Qed.
Lemma insert_all : forall l acc, NoDup (map fst (acc ++ map (fun e => (to_lower_case lower (fst e), snd e)) l)) ->
  (forall e, In e (acc ++ map (fun e => (to_lower_case lower (fst e), snd e)) l) -> exists t, fst e = from_tokens t) ->
  fold_left (fun m (pr : docpath * rulelist) => hm_insert (to_lower_case lower (fst pr)) (snd pr) m) l acc = acc ++ map (fun e => (to_lower_case lower (fst e), snd e)) l.
Proof.
  induction l as [|e l IH]; intros acc ND FT; cbn [fold_left map]; [rewrite app_nil_r; reflexivity|].
  assert (hm_insert (to_lower_case lower (fst e)) (snd e) acc = acc ++ [(to_lower_case lower (fst e), snd e)]) as ->.
  { clear IH. cbn [map] in ND. rewrite map_app in ND. cbn [map fst] in ND. apply NoDup_remove_2 in ND.
    destruct (FT (to_lower_case lower (fst e), snd e)) as [t Et]; [apply in_or_app; right; left; reflexivity|]. cbn [fst] in Et. rewrite Et in *.
    assert (forall e0, In e0 acc -> exists u, fst e0 = from_tokens u) as FA by (intros e0 J; apply FT, in_or_app; left; exact J).
    assert (~ In (from_tokens t) (map fst acc)) as NI by (intro J; apply ND, in_or_app; left; exact J). clear -FA NI.
    induction acc as [|[k v] acc IH]; [reflexivity|]. cbn [hm_insert app map fst] in *. destruct (path_eqb (from_tokens t) k) eqn:E.
    - exfalso. destruct (FA (k, v) (or_introl eq_refl)) as [u Eu]. cbn [fst] in Eu. subst k. apply path_eqb_tokens in E. subst u. apply NI. left. reflexivity.
    - rewrite IH; [reflexivity | intros e0 J; apply FA; right; exact J | intro J; apply NI; right; exact J]. }
  rewrite IH; rewrite <- app_assoc; [reflexivity | exact ND | exact FT].
Qed.
Definition low_rel (R : list (list token * rule)) : list (list token * rule) :=
  map (fun tr => (map (fun t => match t with TField f => TField (lower f) | _ => t end) (fst tr), snd tr)) R.
Lemma tidy_lowered : forall m R, tidy (cat_rules m) R -> (forall t r, In (t, r) R -> exists n, t = [TField n] /\ ascii_text n) ->
  (forall n n' r r', In ([TField n], r) R -> In ([TField n'], r') R -> lower n = lower n' -> n = n') ->
  tidy (cat_rules (lowered w m)) (low_rel R).
Proof.
  intros m R [ND [D1 D2]] FL INJ.
  assert (EN : forall e, In e (cat_rules m) -> exists n r, fst e = from_tokens [TRoot; TField n] /\ ascii_text n /\ In ([TField n], r) R).
  { intros e J. destruct (D1 e J) as (t & E & _ & NE & S). destruct (rl_rules (snd e)) as [|r rs] eqn:Er; [congruence|].
    assert (In (t, r) R) as K by (apply S; left; reflexivity). destruct (FL t r K) as (n & -> & A). exists n, r. auto. }
  assert (LW : cat_rules (lowered w m) = map (fun e => (to_lower_case lower (fst e), snd e)) (cat_rules m)).
  { unfold lowered, header_context. cbn [matchers cat_rules]. rewrite insert_all; [reflexivity| |].
    - cbn [app]. rewrite map_map. cbn [fst]. clear D1 D2. induction (cat_rules m) as [|e l IH]; [constructor|]. cbn [map] in *. inversion ND as [|? ? N1 N2]; subst.
      constructor; [|apply IH; [exact N2 | intros e0 J; apply EN; right; exact J]].
      intro J. apply in_map_iff in J as (e0 & E0 & J). apply N1. apply in_map_iff. exists e0. split; [|exact J].
      destruct (EN e (or_introl eq_refl)) as (n & r & En & An & Rn). destruct (EN e0 (or_intror J)) as (n0 & r0 & En0 & An0 & Rn0).
      rewrite En, En0 in *. rewrite (lower_named n An), (lower_named n0 An0) in E0. apply from_tokens_inj in E0. injection E0 as E0.
      rewrite (INJ n n0 r r0 Rn Rn0 (eq_sym E0)). reflexivity.
    - intros e J. cbn [app] in J. apply in_map_iff in J as (e0 & <- & J). destruct (EN e0 J) as (n & r & En & An & _). cbn [fst]. rewrite En, (lower_named n An). eexists. reflexivity. }
  split; [|split].
  - rewrite LW, map_map. cbn [fst]. clear D1 D2 LW. induction (cat_rules m) as [|e l IH]; [constructor|]. cbn [map] in *. inversion ND as [|? ? N1 N2]; subst.
    constructor; [|apply IH; [exact N2 | intros e0 J; apply EN; right; exact J]].
    intro J. apply in_map_iff in J as (e0 & E0 & J). apply N1. apply in_map_iff. exists e0. split; [|exact J].
    destruct (EN e (or_introl eq_refl)) as (n & r & En & An & Rn). destruct (EN e0 (or_intror J)) as (n0 & r0 & En0 & An0 & Rn0).
    rewrite En, En0 in *. rewrite (lower_named n An), (lower_named n0 An0) in E0. apply from_tokens_inj in E0. injection E0 as E0.
    rewrite (INJ n n0 r r0 Rn Rn0 (eq_sym E0)). reflexivity.
  - intros e J. rewrite LW in J. apply in_map_iff in J as (e0 & <- & J). destruct (EN e0 J) as (n & r & En & An & Rn). cbn [fst snd].
    destruct (D1 e0 J) as (t & Et & L & NE & S). rewrite En in Et. apply from_tokens_inj in Et. injection Et as <-.
    exists [TField (lower n)]. rewrite En. split; [apply lower_named, An|]. split; [exact L|]. split; [exact NE|].
    intro r0. rewrite S. unfold low_rel. rewrite in_map_iff. split.
    + intro K. exists ([TField n], r0). split; [reflexivity | exact K].
    + intros ([t r1] & E & K). destruct (FL t r1 K) as (n1 & -> & A1). cbn [fst snd map] in E. injection E as E <-. rewrite (INJ n n1 r r1 Rn K (eq_sym E)). exact K.
  - intros t r J. unfold low_rel in J. apply in_map_iff in J as ([t0 r0] & E & K). destruct (FL t0 r0 K) as (n & -> & A). cbn [fst snd map] in E. injection E as <- <-.
    destruct (D2 _ _ K) as [rl J]. exists rl. rewrite LW. apply in_map_iff. exists (from_tokens [TRoot; TField n], rl). split; [|exact J]. cbn [fst snd]. rewrite (lower_named n A). reflexivity.
Qed.

(** ** The values of a header *)
Lemma parse_nonempty : forall k s, parse_header w k s <> [].
Proof. intros k s. unfold parse_header. destruct (str_in _ _); [discriminate|]. intro E. apply map_eq_nil in E. exact (split_on_nonempty _ _ E). Qed.
Notation sp := (is_space w).
Lemma no_rules_values : forall k e a, (structured_name lower k -> forall v, In v e -> exists h, reads_as sp h v) -> (structured_name lower k -> forall v, In v a -> exists h, reads_as sp h v) ->
  (header_values_ok w (mkCat CHeader []) k e a <-> values_agree (value_agrees sp lower k) (blank sp) e a).
Proof.
  intros k e a RE RA. set (c := mkCtx false (mkCat CHeader [])).
  assert (searched (matchers c)) as SM by (right; left; reflexivity).
  assert (body_variants (matchers c)) as BV by (intros ? ? []).
  assert (unique_names lower [(k, a)]) as U by (constructor; [intros [] | constructor]).
  assert (readable_headers sp lower [(k, e)]) as R1 by (intros k0 vs v [J|[]]; injection J as <- <-; exact (fun S => RE S v)).
  assert (readable_headers sp lower [(k, a)]) as R2 by (intros k0 vs v [J|[]]; injection J as <- <-; exact (fun S => RA S v)).
  pose proof (C106_headers w c [(k, e)] [(k, a)] SM BV U R1 R2) as H1.
  pose proof (C21_without_rules w [(k, e)] [(k, a)] c eq_refl U R1 R2) as H2.
  assert (headers_ok w (matchers c) [(k, e)] [(k, a)] <-> header_values_ok w (mkCat CHeader []) k e a) as X1.
  { split.
    - intro H. destruct (H k e (or_introl eq_refl)) as (a0 & (k' & [J|[]] & _) & V). injection J as <- <-. exact V.
    - intros V k0 e0 [J|[]]. injection J as <- <-. exists a. split; [exists k; split; [left; reflexivity | reflexivity] | exact V]. }
  assert (headers_agree sp lower [(k, e)] [(k, a)] <-> values_agree (value_agrees sp lower k) (blank sp) e a) as X2.
  { split.
    - intro H. destruct (H k e (or_introl eq_refl)) as (a0 & (k' & [J|[]] & _) & V). injection J as <- <-. exact V.
    - intros V k0 e0 [J|[]]. injection J as <- <-. exists a. split; [exists k; split; [left; reflexivity | reflexivity] | exact V]. }
  rewrite <- X1, <- X2, <- H1, <- H2. reflexivity.
Qed.
Lemma list_rule_ext : forall (v v' : category -> docpath -> str -> str -> Prop) sc m p r b e a, simple r -> (forall m q x y, v m q x y <-> v' m q x y) ->
  (list_rule v sc m p r b e a <-> list_rule v' sc m p r b e a).
Proof.
  intros v v' sc m p r b e a S H. unfold list_rule, items_ok. destruct r; try contradiction; setoid_rewrite H; reflexivity.
Qed.
Lemma header_values_iff : forall m R k ps e a, (cat_rules m <> [] -> cat_name m <> CBody) -> tidy (cat_rules m) R -> tidy (cat_rules (lowered w m)) R ->
  (forall t r, In (t, r) R -> exists n, t = [TField n]) ->
  (forall r, In ([TField (lower k)], r) R <-> exists p, In p ps /\ In r (s_rules p)) ->
  canonical_key (lower k) -> ps <> [] -> e = texts_of w k ps ->
  (structured_name lower k -> forall v, In v e -> exists h, reads_as sp h v) -> (structured_name lower k -> forall v, In v a -> exists h, reads_as sp h v) ->
  (header_values_ok w m k e a <-> header_accepted w k ps a).
Proof.
  intros m R k ps e a NB T TL FL RR CK NE Ee RE RA.
  assert (NBl : cat_rules (lowered w m) <> [] -> cat_name (lowered w m) <> CBody).
  { intro H. change (cat_name (lowered w m)) with (cat_name m). apply NB. intro E. apply H. unfold lowered, header_context. cbn [matchers cat_rules]. rewrite E. reflexivity. }
  set (p := join path_root (lower k)).
  assert (V : to_vec p = S_ "$" :: lower k :: []) by (unfold p; rewrite to_vec_join, (display_canonical _ CK); reflexivity).
  assert (V1 : forall i, exists rest, to_vec (item p i) = S_ "$" :: lower k :: rest) by (intro i; unfold item; rewrite to_vec_join, V; eexists; reflexivity).
  assert (simple_R : forall r, In ([TField (lower k)], r) R -> simple r) by (intros r J; apply RR in J as (q & _ & K); exact (s_rules_simple q r K)).
  assert (NEe : e <> []).
  { rewrite Ee. destruct ps as [|q ps]; [congruence|]. unfold texts_of. cbn [flat_map]. pose proof (parse_nonempty k (s_example q)) as X. destruct (parse_header w k (s_example q)); [congruence | discriminate]. }
  destruct (some_rule_dec ps) as [S|S].
  - assert (exists r, In ([TField (lower k)], r) R) as Ex. { apply some_rule_iff in S as (r & q & J). exists r. apply RR. exists q. exact J. }
    assert (HV : forall m', (cat_rules m' <> [] -> cat_name m' <> CBody) -> tidy (cat_rules m') R -> forall i x y, header_value w m' k i x y <-> all_ask w ps (trim w y)).
    { intros m' NB' T' i x y. unfold header_value. fold p. cbv zeta. rewrite (none_named m' R T' FL p (lower k) [] V), (by_named m' R NB' T' FL p (lower k) [] _ V).
      2:{ intros r b b' J. apply simple_stable, simple_R, J. }
      rewrite (all_ask_iff w ps (trim w y) (trim w x) false). split.
      - intros [[_ H]|[[No _]|[No _]]]; [intros r J; apply H, RR, J | destruct Ex as [r J]; destruct (No r J) | destruct Ex as [r J]; destruct (No r J)].
      - intro H. left. split; [exact Ex|]. intros r J. apply H, RR, J. }
    assert (LR : forall r, In ([TField (lower k)], r) R ->
      (list_rule (fun m _ x y => header_value w m k 0 x y) (lowered w) (lowered w m) p r false e a <-> forall y, In y a -> all_ask w ps (trim w y))).
    { intros r J. unfold list_rule. assert ((list_satisfies r false e a /\ items_ok (fun m _ x y => header_value w m k 0 x y) (lowered w m) p e a) <-> (forall y, In y a -> all_ask w ps (trim w y))) as X.
      { assert (list_satisfies r false e a) as LS by (apply RR in J as (q & _ & K); exact (s_rules_list q r false e a K)).
        unfold items_ok. split.
        - intros (_ & H & _) y Jy. apply In_nth_error in Jy as [i Ei].
          assert (exists x0, expected_at e i x0) as [x0 X0].
          { unfold expected_at. destruct (nth_error e i) as [z|] eqn:Ez; [exists z; left; reflexivity|]. destruct e as [|z e']; [congruence|]. exists z. right. split; [reflexivity|]. exists e'. reflexivity. }
          specialize (H i x0 y X0 Ei). apply (HV (lowered w m) NBl TL) in H. exact H.
        - intro H. split; [exact LS|]. split.
          + intros i x0 y _ Ei. apply (HV (lowered w m) NBl TL). apply H. exact (nth_error_In _ _ Ei).
          + intros i _ No. destruct Ex as [r0 J0]. destruct (V1 i) as [rest Vr]. exact (proj1 (none_named (lowered w m) R TL FL _ (lower k) _ Vr) No r0 J0). }
      apply simple_R in J. destruct r; try contradiction; (split; [intros [Z|Z]; [congruence | apply X; exact Z] | intro Z; right; apply X; exact Z]). }
    assert (BR : by_rules m p (fun r cascaded => list_rule (fun m _ x y => header_value w m k 0 x y) (lowered w) (lowered w m) p r cascaded e a) <-> forall y, In y a -> all_ask w ps (trim w y)).
    { rewrite (by_named m R NB T FL p (lower k) [] _ V).
      2:{ intros r b b' J. pose proof (simple_R r J) as Sr. apply RR in J as (q & _ & K). unfold list_rule.
          pose proof (s_rules_list q r b e a K) as L1. pose proof (s_rules_list q r b' e a K) as L2. destruct r; try contradiction; tauto. }
      split; [intros [_ H]; destruct Ex as [r J]; apply (LR r J), H, J | intro H; split; [exact Ex | intros r J; apply (LR r J), H]]. }
    unfold header_values_ok, header_accepted. cbv zeta. fold p. rewrite BR, (none_named m R T FL p (lower k) [] V). split.
    + intros [(x & y & _ & -> & H)|(_ & _ & [H|(No & _)])].
      * left. split; [exact S|]. intros y0 [<-|[]]. apply (HV m NB T 0%nat x y), H.
      * left. split; [exact S | exact H].
      * destruct Ex as [r J]. destruct (No r J).
    + intros [[_ H]|[No _]]; [|contradiction]. destruct e as [|x [|x2 e']]; [congruence| |].
      * destruct a as [|y [|y2 a']].
        -- right. split; [intros [_ Z]; discriminate|]. split; [reflexivity|]. left. exact H.
        -- left. exists x, y. split; [reflexivity|]. split; [reflexivity|]. apply (HV m NB T 0%nat x y), H. left. reflexivity.
        -- right. split; [intros [_ Z]; discriminate|]. split; [discriminate|]. left. exact H.
      * right. split; [intros [Z _]; discriminate|]. split; [discriminate|]. left. exact H.
  - assert (No : forall r, ~ In ([TField (lower k)], r) R). { intros r J. apply RR in J as (q & J & K). apply S, some_rule_iff. exists r, q. auto. }
    assert (NR : forall q, (exists rest, to_vec q = S_ "$" :: lower k :: rest) -> no_rule_at m q /\ forall h, ~ by_rules m q h).
    { intros q [rest Vq]. split; [apply (none_named m R T FL q (lower k) rest Vq), No|]. intros h (rl & A & _).
      assert (exists q0, In (q0, rl) (cat_rules m) /\ candidate (to_vec q) q0) as (q0 & J & C).
      { unfold applies in A. destruct (cat_rules m) as [|e0 l0] eqn:Ec.
        - destruct (cat_name m); destruct A as (bf & q0 & af & E' & _); rewrite Ec in E'; destruct bf; discriminate.
        - assert (cat_name m <> CBody) as Nn by (apply NB; discriminate). rewrite <- Ec in *. clear Ec.
          destruct (cat_name m) eqn:CE; try congruence; destruct A as (bf & q0 & af & E' & C & _); exists q0; (split; [rewrite E'; apply in_or_app; right; left; reflexivity | exact C]). }
      exact (proj2 (none_named m R T FL q (lower k) rest Vq) No _ J C). }
    assert (header_values_ok w m k e a <-> header_values_ok w (mkCat CHeader []) k e a) as ->.
    { unfold header_values_ok. cbv zeta. fold p. destruct (NR p (ex_intro _ [] V)) as [NR1 NR2].
      assert (forall i x y, header_value w m k i x y <-> header_value w (mkCat CHeader []) k i x y) as HV.
      { intros i x y. unfold header_value. cbv zeta. fold p. destruct (NR (item p i) (V1 i)) as [NR3 NR4].
        assert (forall q h, ~ by_rules (mkCat CHeader []) q h) as NB0.
        { intros q h (rl & (bf & q0 & af & E' & _) & _). destruct bf; discriminate. }
        assert (forall q, no_rule_at (mkCat CHeader []) q) as NO0 by (intros q e0 []).
        split; (intros [H|[[_ H]|(_ & _ & H)]]; [exfalso; eapply NR2 + eapply NB0; exact H | exfalso; eapply NR4 + eapply NB0; exact H | right; right; split; [auto|]; split; auto]). }
      setoid_rewrite HV.
      assert (forall h, ~ by_rules (mkCat CHeader []) p h) as NB0 by (intros h (rl & (bf & q0 & af & E' & _) & _); destruct bf; discriminate).
      assert (no_rule_at (mkCat CHeader []) p) as NO0 by (intros e0 []).
      split; (intros [H|(H1 & H2 & [H|(_ & H)])]; [left; exact H | exfalso; eapply NR2 + eapply NB0; exact H | right; split; [exact H1|]; split; [exact H2|]; right; split; [assumption | exact H]]). }
    rewrite (no_rules_values k e a RE RA). unfold header_accepted. rewrite <- Ee || (unfold texts_of in Ee; rewrite <- Ee). split; [intro H; right; split; [exact S | exact H] | intros [[Z _]|[_ H]]; [contradiction | exact H]].
Qed.
End Lower.
