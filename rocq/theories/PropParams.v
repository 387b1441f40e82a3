(** Property C106: query parameters and headers under any set of rules. *)
From Coq Require Import Ascii String List Arith NArith ZArith Lia Bool.
From Verif Require Import Base PathExp SpecPath PropPath Json Text TextProofs MatchingRules SpecRules RulesProofs PropRules
  Matchers JsonCompare SpecMatch CompareProofs CompareProofs2 CompareProofs3 PropMatch SpecValues PropValues SpecBody BodyProofs
  Headers Query ContentType SpecXml PropXml SpecQuery QueryProofs SpecHeaders HeaderProofs HeaderProofs2 PropHeaders Http SpecHttp PropHttp SpecParams.
Import ListNotations.
Open Scope N_scope.
Local Opaque show_N.

(** ** Lookup *)
Lemma matches_iff : forall q v, matches_path q v = true <-> candidate v q.
Proof. intros q v. exact (candidate_iff v q). Qed.
Section Lookup.
Variables (m : category) (p : docpath).
Hypothesis SM : searched m.
Lemma resolve_filter : resolve_matchers_for_path m (to_vec p) = cat_filter (fun q => matches_path q (to_vec p)) m.
Proof. unfold resolve_matchers_for_path. destruct SM as [E|[E|E]]; rewrite E; reflexivity. Qed.
Lemma defined_at : matcher_is_defined m (to_vec p) = true <-> exists e, In e (cat_rules m) /\ candidate (to_vec p) (fst e).
Proof.
  unfold matcher_is_defined. rewrite resolve_filter. unfold cat_is_empty, cat_filter. cbn [cat_rules].
  destruct (filter _ (cat_rules m)) as [|e l] eqn:F; cbn; split; intro H; try discriminate; try reflexivity.
  - destruct H as (e & I & C). exfalso. assert (In e []) as []; rewrite <- F. apply filter_In. split; [exact I|]. apply matches_iff, C.
  - assert (In e (e :: l)) as I by (left; reflexivity). rewrite <- F in I. apply filter_In in I as [I G]. exists e. split; [exact I|]. apply matches_iff, G.
Qed.
Lemma undefined_at : matcher_is_defined m (to_vec p) = false <-> no_rule_at m p.
Proof.
  unfold no_rule_at. destruct (matcher_is_defined m (to_vec p)) eqn:D.
  - split; [discriminate|]. intro N. apply defined_at in D as (e & I & C). destruct (N e I C).
  - split; [|reflexivity]. intros _ e I C. assert (matcher_is_defined m (to_vec p) = true) by (apply defined_at; eauto). congruence.
Qed.
Lemma category_eq_dec : forall a b : category_name, {a = b} + {a <> b}.
Proof. decide equality. Qed.
Lemma first_for_select : cat_name m <> CBody -> forall rl, first_for m p rl <->
  matcher_is_defined m (to_vec p) = true /\ select_best_matcher m (to_vec p) = rl.
Proof.
  intros NB rl. assert (select_best_matcher m (to_vec p) = as_rule_list (resolve_matchers_for_path m (to_vec p))) as ->.
  { unfold select_best_matcher. destruct SM as [E|[E|E]]; rewrite E; [reflexivity|reflexivity|contradiction]. }
  rewrite resolve_filter. unfold as_rule_list, cat_filter. cbn [cat_rules]. split.
  - intros (b & q & a & E & C & NB'). split.
    + apply defined_at. exists (q, rl). split; [|exact C]. rewrite E. apply in_or_app. right. left. reflexivity.
    + rewrite E. destruct (first_filter _ (fun pr : docpath * rulelist => matches_path (fst pr) (to_vec p)) b (q, rl) a) as [t F].
      * apply matches_iff, C.
      * intros y I. destruct (matches_path (fst y) (to_vec p)) eqn:M; [|reflexivity]. exfalso. apply (NB' y I), matches_iff, M.
      * rewrite F. reflexivity.
  - intros [D L]. apply defined_at in D as (e & I & C). destruct (filter _ (cat_rules m)) as [|[q rl0] t] eqn:F.
    + exfalso. assert (In e []) as []; rewrite <- F. apply filter_In. split; [exact I|]. apply matches_iff, C.
    + subst rl0. apply filter_first in F as (b & a & E & G & NB'). exists b, q, a. split; [exact E|]. split; [apply matches_iff, G|].
      intros e' I' C'. apply matches_iff in C'. rewrite (NB' e' I') in C'. discriminate.
Qed.
Lemma applies_select : forall rl, applies m p rl <-> matcher_is_defined m (to_vec p) = true /\ select_best_matcher m (to_vec p) = rl.
Proof.
  intro rl. destruct (category_eq_dec (cat_name m) CBody) as [E|E].
  - unfold applies. rewrite E. split.
    + intro F. split; [eapply in_force_defined; eassumption | apply in_force_select; assumption].
    + intros [D <-]. apply select_in_force; assumption.
  - rewrite <- (first_for_select E). unfold applies. destruct (cat_name m); tauto || congruence.
Qed.
Lemma by_rules_iff : forall holds,
  by_rules m p holds <-> matcher_is_defined m (to_vec p) = true /\
    (let rl := select_best_matcher m (to_vec p) in rl_rules rl <> [] /\ combined (rl_logic rl) (rl_rules rl) (fun r => holds r (rl_cascaded rl))).
Proof.
  intro holds. unfold by_rules. split.
  - intros (rl & A & H). apply applies_select in A as [D <-]. exact (conj D H).
  - intros [D H]. exists (select_best_matcher m (to_vec p)). split; [apply applies_select; auto | exact H].
Qed.
Lemma applies_rules : forall rl, applies m p rl -> exists e, In e (cat_rules m) /\ rl_rules rl = rl_rules (snd e).
Proof.
  intros rl A. unfold applies in A. destruct (cat_name m);
    try (destruct A as (b & q & a & E & _); exists (q, rl); split; [rewrite E; apply in_or_app; right; left; reflexivity | reflexivity]).
  destruct A as (b & e & a & E & _ & _ & _ & ->). exists e. split; [rewrite E; apply in_or_app; right; left; reflexivity | reflexivity].
Qed.
End Lookup.

Section Decide.
Variable w : world.
Lemma values_by_rules : forall m p e a, searched m -> matcher_is_defined m (to_vec p) = true ->
  (match_values (str_matches w e a) (select_best_matcher m (to_vec p)) = [] <-> by_rules m p (fun r k => xtext_satisfies w r k e a)).
Proof.
  intros m p e a SM D. rewrite match_values_iff, (by_rules_iff m p SM). cbv zeta.
  set (rl := select_best_matcher m (to_vec p)).
  rewrite (combined_ext (rl_logic rl) (rl_rules rl) _ (fun r => xtext_satisfies w r (rl_cascaded rl) e a) (fun r => xtext_iff w r (rl_cascaded rl) e a)).
  tauto.
Qed.
Lemma not_by_rules : forall m p holds, searched m -> matcher_is_defined m (to_vec p) = false -> ~ by_rules m p holds.
Proof. intros m p holds SM D B. apply (by_rules_iff m p SM) in B as [D' _]. congruence. Qed.
Lemma decided_values : forall m p e a, searched m ->
  ((if matcher_is_defined m (to_vec p) then match_values (str_matches w e a) (select_best_matcher m (to_vec p))
    else if str_matches w e a REquality false then [] else [KNotEqual]) = [] <-> text_ok w m p e a).
Proof.
  intros m p e a SM. unfold text_ok, decided. destruct (matcher_is_defined m (to_vec p)) eqn:D.
  - rewrite (values_by_rules m p e a SM D). split; [auto|]. intros [[N _]|H]; [|exact H]. apply (undefined_at m p SM) in N. congruence.
  - pose proof (proj1 (undefined_at m p SM) D) as N. pose proof (xtext_iff w REquality false e a) as X. split.
    + intro H. left. split; [exact N|]. apply X. destruct (str_matches w e a REquality false); [reflexivity | discriminate].
    + intros [[_ H]|H]; [|destruct (not_by_rules m p _ SM D H)]. apply X in H. rewrite H. reflexivity.
Qed.
End Decide.

(** ** Lists of values *)
Section Lists.
Variable w : world.
Variable clone : context -> category -> context.
Variable cb : docpath -> str -> str -> context -> list mismatch.
Variable value : category -> docpath -> str -> str -> Prop.
Variable scope : category -> category.
Hypothesis clone_scope : forall c m, matchers (clone c m) = scope m.
Hypothesis scope_searched : forall m, searched m -> searched (scope m).
Variables okx oky : str -> Prop.
Hypothesis cb_value : forall c p x y, searched (matchers c) -> okx x -> oky y -> (cb p x y c = [] <-> value (matchers c) p x y).

Lemma elements_at : forall p c e a i,
  match_elements str cb p c i e a = [] <->
  (forall n x y, nth_error e n = Some x -> nth_error a n = Some y -> cb (join p (show_N (i + N.of_nat n))) x y c = []) /\
  (forall n, (length a <= n < length e)%nat -> ctx_matcher_is_defined c (join p (show_N (i + N.of_nat n))) = true).
Proof.
  intros p c. induction e as [|x e IH]; intros a i; cbn [match_elements].
  - split; [intros _; split; [intros [|n]; discriminate|cbn; intros n L; lia]|reflexivity].
  - assert (Z : forall n : nat, i + 1 + N.of_nat n = i + N.of_nat (Datatypes.S n)) by (intro n; lia).
    destruct a as [|y a]; rewrite app_nil_iff, IH.
    + split.
      * intros [H1 [H2 H3]]. split; [intros n x0 y E F; destruct n; discriminate|].
        intros n L. destruct n as [|n].
        -- cbn [N.of_nat]. rewrite N.add_0_r. destruct (ctx_matcher_is_defined c (join p (show_N i))); [reflexivity|discriminate].
        -- rewrite <- Z. apply H3. cbn [length] in *. lia.
      * intros [H1 H2]. split; [|split].
        -- specialize (H2 O). cbn [N.of_nat] in H2. rewrite N.add_0_r in H2. rewrite H2; [reflexivity|cbn; lia].
        -- intros [|n]; discriminate.
        -- intros n L. rewrite Z. apply H2. cbn [length] in *. lia.
    + split.
      * intros [H1 [H2 H3]]. split.
        -- intros [|n] x0 y0 E F; cbn [nth_error] in E, F.
           ++ injection E as <-. injection F as <-. cbn [N.of_nat]. rewrite N.add_0_r. exact H1.
           ++ rewrite <- Z. eapply H2; eassumption.
        -- intros [|n] L; cbn [length] in L; [lia|]. rewrite <- Z. apply H3. lia.
      * intros [H1 H2]. split; [|split].
        -- specialize (H1 O x y eq_refl eq_refl). cbn [N.of_nat] in H1. rewrite N.add_0_r in H1. exact H1.
        -- intros n x0 y0 E F. rewrite Z. apply (H1 (Datatypes.S n)); assumption.
        -- intros n L. rewrite Z. apply H2. cbn [length]. lia.
Qed.
Lemma pad_at : forall (e : list str) n i x, (i < n)%nat -> (nth_error (pad_expected str e n) i = Some x <-> expected_at e i x).
Proof.
  intros e n i x L. unfold pad_expected, expected_at. destruct e as [|f e].
  - split; [destruct i; discriminate | intros [H|[_ [r H]]]; [destruct i; discriminate | discriminate]].
  - destruct (Nat.ltb_spec i (length (f :: e))) as [Li|Li].
    + rewrite nth_error_app1 by exact Li. split; [auto|]. intros [H|[H _]]; [exact H|]. apply nth_error_None in H. lia.
    + rewrite nth_error_app2 by exact Li. assert (nth_error (f :: e) i = None) as -> by (apply nth_error_None; exact Li).
      rewrite (nth_error_nth' _ f) by (rewrite repeat_length; lia). rewrite nth_repeat. split.
      * intro H. injection H as <-. right. split; [reflexivity | eauto].
      * intros [H|[_ [r H]]]; [discriminate|]. injection H as <- _. reflexivity.
Qed.
Lemma expected_in : forall e i x, expected_at e i x -> In x e.
Proof. intros e i x [H|[_ [r ->]]]; [exact (nth_error_In _ _ H) | left; reflexivity]. Qed.
Lemma contents_at : forall p c e a, searched (matchers c) -> (forall x, In x e -> okx x) -> (forall y, In y a -> oky y) ->
  (match_list_contents str cb p e a c = [] <-> items_ok value (matchers c) p e a).
Proof.
  intros p c e a SM OX OY. unfold match_list_contents, items_ok, item. rewrite elements_at. split.
  - intros [H1 H2]. split.
    + intros i x y E F. assert (i < length a)%nat as L by (apply nth_error_Some; congruence).
      apply cb_value; [exact SM | apply OX; eapply expected_in, E | apply OY; eapply nth_error_In, F|]. apply (H1 i x y); [|exact F]. apply pad_at; assumption.
    + intros i L ND. specialize (H2 i). unfold ctx_matcher_is_defined in H2. apply (undefined_at _ _ SM) in ND. rewrite N.add_0_l in H2.
      rewrite ND in H2. discriminate H2. unfold pad_expected. destruct e; [cbn in L; lia|]. rewrite app_length. lia.
  - intros [H1 H2]. split.
    + intros i x y E F. assert (i < length a)%nat as L by (apply nth_error_Some; congruence). rewrite N.add_0_l.
      apply pad_at in E; [|exact L]. apply cb_value; [exact SM | apply OX; eapply expected_in, E | apply OY; eapply nth_error_In, F|]. exact (H1 _ _ _ E F).
    + intros i L. rewrite N.add_0_l. unfold ctx_matcher_is_defined. destruct (matcher_is_defined _ _) eqn:D; [reflexivity|]. exfalso.
      apply (undefined_at _ _ SM) in D. apply (H2 i); [|exact D]. unfold pad_expected in L. destruct e as [|f e]; [cbn in L; lia|].
      rewrite app_length, repeat_length in L. lia.
Qed.
Lemma list_eqb_str : forall e a, list_eqb str_eqb e a = true <-> e = a.
Proof.
  induction e as [|x e IH]; destruct a as [|y a]; cbn [list_eqb]; split; intro H; try discriminate; try reflexivity.
  - apply andb_true_iff in H as [H1 H2]. apply str_eqb_eq in H1. apply IH in H2. congruence.
  - injection H as -> ->. rewrite str_eqb_refl. apply IH. reflexivity.
Qed.
Lemma list_satisfies_iff : forall r k e a, list_matches str_eqb e a r k = true <-> list_satisfies r k e a.
Proof.
  intros r k e a. destruct r; cbn [list_matches list_satisfies]; try tauto; try (split; [discriminate|contradiction]).
  - apply list_eqb_str.
  - apply (size_iff (RMinType min) k (len a) I).
  - apply (size_iff (RMaxType max) k (len a) I).
  - apply (size_iff (RMinMaxType min max) k (len a) I).
  - apply nonempty_iff.
Qed.
Lemma a_variant_iff : forall e vs i rules, In (i, rules) (effective_variants str e vs) <-> a_variant e vs i rules.
Proof.
  intros e vs i rules. unfold effective_variants, a_variant. destruct vs; [|tauto]. rewrite in_map_iff. unfold len. split.
  - intros (n & E & J). injection E as <- <-. apply in_seq in J. split; [lia|reflexivity].
  - intros [L ->]. exists (N.to_nat i). split; [rewrite N2Nat.id; reflexivity|]. apply in_seq. lia.
Qed.
Lemma variant_at : forall p e a c i rules, searched rules -> (forall x, In x e -> okx x) -> (forall y, In y a -> oky y) ->
  (match_variant str clone cb p e a c (i, rules) = [] <->
   exists x y, nth_error e (N.to_nat i) = Some x /\ In y a /\ value (scope rules) path_root x y).
Proof.
  intros p e a c i rules SR OX OY. unfold match_variant. cbn [fst snd].
  assert (forall x y, okx x -> oky y -> (cb path_root x y (clone c rules) = [] <-> value (scope rules) path_root x y)) as V.
  { intros x y Kx Ky. rewrite cb_value; [|rewrite clone_scope; apply scope_searched, SR|exact Kx|exact Ky]. rewrite clone_scope. reflexivity. }
  destruct (nth_error e (N.to_nat i)) as [x|] eqn:Nx.
  - apply nth_error_In in Nx. destruct (existsb _ a) eqn:E.
    + split; [intros _ | reflexivity]. apply existsb_exists in E as [y [J E]]. exists x, y. split; [reflexivity|]. split; [exact J|].
      apply (V x y (OX x Nx) (OY y J)). destruct (cb _ _ _ _); [reflexivity | discriminate].
    + split; [discriminate|]. intros (x' & y & Ex & J & C). injection Ex as <-. apply (V x y (OX x Nx) (OY y J)) in C.
      assert (existsb (fun y => match cb path_root x y (clone c rules) with [] => true | _ => false end) a = true).
      { apply existsb_exists. exists y. split; [exact J|]. rewrite C. reflexivity. }
      congruence.
  - split; [discriminate|]. intros (x' & y & Ex & _). discriminate.
Qed.
Lemma list_rule_iff : forall r p e a c k, searched (matchers c) -> (forall x, In x e -> okx x) -> (forall y, In y a -> oky y) ->
  (forall vs, r = RArrayContains vs -> Forall (fun v => cat_name (snd v) = CBody) vs) ->
  (compare_lists_with_matchingrule str str_eqb clone cb r p e a c k = [] <-> list_rule value scope (matchers c) p r k e a).
Proof.
  intros r p e a c k SM OX OY BV. unfold compare_lists_with_matchingrule, list_rule. destruct e as [|f e0] eqn:Ee; [split; auto|]. rewrite <- Ee in *.
  assert (NE : e <> []) by (rewrite Ee; discriminate). clear f e0 Ee.
  assert (OTHER : (if list_matches str_eqb e a r k then [] else [mm p (KRule r)]) ++ match_list_contents str cb p e a c = [] <->
                  e = [] \/ list_satisfies r k e a /\ items_ok value (matchers c) p e a).
  { rewrite app_nil_iff, (contents_at p c e a SM OX OY). rewrite <- list_satisfies_iff. destruct (list_matches str_eqb e a r k).
    - tauto.
    - split; [intros [H _]; discriminate | intros [H|[H _]]; [contradiction | discriminate]]. }
  destruct r; try exact OTHER; clear OTHER.
  - rewrite flat_map_nil.
    assert (forall i rules, a_variant e variants i rules -> searched rules) as SV.
    { intros i rules V. unfold a_variant in V. destruct variants as [|v vs].
      - destruct V as [_ ->]. right. right. reflexivity.
      - specialize (BV (v :: vs) eq_refl). rewrite Forall_forall in BV. right. right. exact (BV _ V). }
    split.
    + intro H. right. intros i rules V. apply (variant_at p e a c i rules (SV _ _ V) OX OY). apply H, a_variant_iff, V.
    + intros [H|H]; [contradiction|]. intros [i rules] V. apply a_variant_iff in V. apply (variant_at p e a c i rules (SV _ _ V) OX OY). exact (H _ _ V).
  - destruct k; [split; auto|].
    assert (searched (matchers (clone c (each_value_rules p d)))) as SD by (rewrite clone_scope; apply scope_searched; right; right; reflexivity).
    rewrite app_nil_iff, each_value_iff, (contents_at p _ e a SD OX OY), clone_scope. split.
    + intros [F H]. right. right. eexists. split; [exact F | exact H].
    + intros [H|[H|(m' & F & H)]]; [contradiction | discriminate|]. pose proof (each_value_unique _ _ _ F) as ->. auto.
Qed.
Lemma list_rules_iff : forall p rl e a c, searched (matchers c) -> (forall x, In x e -> okx x) -> (forall y, In y a -> oky y) ->
  (forall vs, In (RArrayContains vs) (rl_rules rl) -> Forall (fun v => cat_name (snd v) = CBody) vs) ->
  (compare_lists_with_matchingrules str str_eqb clone cb p rl e a c = [] <->
   rl_rules rl <> [] /\ combined (rl_logic rl) (rl_rules rl) (fun r => list_rule value scope (matchers c) p r (rl_cascaded rl) e a)).
Proof.
  intros p [rs lg k] e a c SM OX OY BV. unfold compare_lists_with_matchingrules. cbn [rl_rules rl_logic rl_cascaded] in *.
  destruct rs as [|r0 rs0] eqn:Er; [split; [discriminate | intros [H _]; congruence]|]. rewrite <- Er in *.
  assert (NE : rs <> []) by (rewrite Er; discriminate). replace (rl_is_empty (mkRules rs lg k)) with false by (rewrite Er; reflexivity).
  clear r0 rs0 Er.
  assert (forall r, In r rs -> (compare_lists_with_matchingrule str str_eqb clone cb r p e a c k = [] <-> list_rule value scope (matchers c) p r k e a)) as R.
  { intros r J. apply list_rule_iff; [exact SM|exact OX|exact OY|]. intros vs ->. apply BV, J. }
  destruct lg; cbn [combined].
  - split.
    + intro H. split; [exact NE|]. intros r J. apply R; [exact J|]. rewrite <- flat_map_concat_map in H. exact (proj1 (flat_map_nil _ _ _ _) H r J).
    + intros [_ H]. rewrite <- flat_map_concat_map. apply flat_map_nil. intros r J. apply R; [exact J|]. exact (H r J).
  - destruct (forallb nonempty _) eqn:F.
    + split.
      * intro H. exfalso. destruct rs as [|r rs]; [congruence|]. cbn [map concat] in H. apply app_eq_nil in H as [H _].
        cbn [map forallb] in F. rewrite H in F. discriminate.
      * intros [_ (r & J & H)]. exfalso. apply R in H; [|exact J]. rewrite forallb_forall in F.
        specialize (F _ (in_map (fun r => compare_lists_with_matchingrule str str_eqb clone cb r p e a c k) _ _ J)). cbv beta in F. rewrite H in F. discriminate.
    + split; [|reflexivity]. intros _. split; [exact NE|].
      assert (exists r, In r rs /\ compare_lists_with_matchingrule str str_eqb clone cb r p e a c k = []) as (r & J & H).
      { clear -F. induction rs as [|r rs IH]; [discriminate|]. cbn [map forallb] in F. destruct (nonempty _) eqn:Q.
        - destruct (IH F) as (r' & J & H). exists r'. split; [right; exact J | exact H].
        - exists r. split; [left; reflexivity|]. destruct (compare_lists_with_matchingrule _ _ _ _ _ _ _ _ _ _); [reflexivity | discriminate]. }
      exists r. split; [exact J|]. apply R; assumption.
Qed.
End Lists.

(** ** Query parameters *)
Section QueryRules.
Variable w : world.
Variable c : context.
Notation m := (matchers c).
Hypothesis SM : searched m.
Hypothesis BV : body_variants m.

Lemma query_value_iff : forall p x y i, compare_query_parameter_value w p x y (N.of_nat i) c = [] <-> text_ok w m (item p i) x y.
Proof.
  intros p x y i. unfold compare_query_parameter_value. cbv zeta. rewrite <- (decided_values w m (item p i) x y SM).
  unfold ctx_matcher_is_defined, ctx_select_best, item. split; intro H; [apply map_eq_nil in H; exact H | rewrite H; reflexivity].
Qed.
Lemma query_elements_iff : forall p e a i, length e = length a ->
  (query_elements w p c (N.of_nat i) e a = [] <->
   forall n x y, nth_error e n = Some x -> nth_error a n = Some y -> text_ok w m (item p (i + n)) x y).
Proof.
  intro p. induction e as [|x e IH]; intros a i L; destruct a as [|y a]; try discriminate; cbn [query_elements].
  - split; [intros _ [|n]; discriminate | reflexivity].
  - cbn [length] in L. injection L as L. rewrite app_nil_iff, query_value_iff. replace (N.of_nat i + 1) with (N.of_nat (Datatypes.S i)) by lia.
    rewrite (IH a (Datatypes.S i) L). split.
    + intros [H1 H2] [|n] x0 y0 E F; cbn [nth_error] in E, F.
      * injection E as <-. injection F as <-. rewrite Nat.add_0_r. exact H1.
      * replace (i + Datatypes.S n)%nat with (Datatypes.S i + n)%nat by lia. exact (H2 n x0 y0 E F).
    + intro H. split.
      * specialize (H O x y eq_refl eq_refl). rewrite Nat.add_0_r in H. exact H.
      * intros n x0 y0 E F. replace (Datatypes.S i + n)%nat with (i + Datatypes.S n)%nat by lia. exact (H (Datatypes.S n) x0 y0 E F).
Qed.
Lemma variants_here : forall p vs, In (RArrayContains vs) (rl_rules (select_best_matcher m (to_vec p))) -> matcher_is_defined m (to_vec p) = true ->
  Forall (fun v => cat_name (snd v) = CBody) vs.
Proof.
  intros p vs J D. assert (applies m p (select_best_matcher m (to_vec p))) as A by (apply applies_select; auto).
  apply applies_rules in A as (e & Ie & E). rewrite E in J. exact (BV e vs Ie J).
Qed.
End QueryRules.
Lemma query_value_cb : forall w (c : context) p x y, searched (matchers c) ->
  (compare_query_parameter_value w p x y 0 c = [] <-> text_ok w (matchers c) (item p 0) x y).
Proof. intros w c p x y SM. exact (query_value_iff w c SM p x y 0). Qed.
Section QueryTheorem.
Variable w : world.
Variable c : context.
Notation m := (matchers c).
Hypothesis SM : searched m.
Hypothesis BV : body_variants m.
Lemma param_iff : forall k e a, match_query_values w k e a c = [] <-> param_ok w m k e a.
Proof.
  intros k e a. unfold match_query_values, param_ok. cbv zeta. unfold ctx_matcher_is_defined, ctx_select_best. set (p := join path_root k).
  destruct (matcher_is_defined m (to_vec p)) eqn:D.
  - rewrite (list_rules_iff clone_with _ (fun m q x y => text_ok w m (item q 0) x y) (fun m => m)
      (fun _ _ => eq_refl) (fun _ H => H) (fun _ => True) (fun _ => True) (fun c p x y H _ _ => query_value_cb w c p x y H) p _ e a (clone_with c m)); [|exact SM|auto|auto|].
    2:{ intros vs J. exact (variants_here c SM BV p vs J D). }
    rewrite (by_rules_iff m p SM). cbv zeta. split.
    + intros H. left. exact (conj D H).
    + intros [[_ H]|[N _]]; [exact H|]. apply (undefined_at m p SM) in N. congruence.
  - pose proof (proj1 (undefined_at m p SM) D) as N.
    assert (L : (if negb (nonempty e) && nonempty a then [mkMM k KNotEmpty]
      else compare_query_parameter_values w p e a c ++ (if Nat.eqb (length e) (length a) then [] else [mkMM k (KListLength (len e) (len a))])) = [] <->
      length e = length a /\ query_elements w p c 0 e a = []).
    { destruct (Nat.eqb_spec (length e) (length a)) as [L|L].
      - unfold compare_query_parameter_values, pad_values. rewrite L, Nat.sub_diag. cbn [repeat]. rewrite !app_nil_r.
        destruct e as [|x e], a as [|y a]; cbn [nonempty negb andb] in *; try discriminate; tauto.
      - split; [|intros [H _]; contradiction]. intro H. exfalso. destruct (negb (nonempty e) && nonempty a); [discriminate|].
        apply app_eq_nil in H as [_ H]. discriminate. }
    rewrite L. split.
    + intros [Le H]. right. split; [exact N|]. split; [exact Le|]. intros i x y Ex Ey.
      exact (proj1 (query_elements_iff w c SM p e a 0 Le) H i x y Ex Ey).
    + intros [H|(_ & Le & H)]; [destruct (not_by_rules m p _ SM D H)|]. split; [exact Le|].
      apply (proj2 (query_elements_iff w c SM p e a 0 Le)). exact H.
Qed.
(** C106: the comparison of query parameters under any rules. *)
Theorem C106_query : forall E A, one_entry_each E -> one_entry_each A ->
  (matched (match_query w E A c) <-> query_ok w m E A).
Proof.
  intros E A NE NA. unfold query_ok, params_of. destruct E as [E|], A as [A|]; cbn [match_query one_entry_each] in *.
  - unfold match_query_maps. rewrite matched_app. split.
    + intros [M U]. split.
      * intros k e Ge. rewrite (entry_get _ k E) in Ge. rewrite (entry_get _ k A). destruct (obj_get k E) as [vs|] eqn:GE; [|discriminate].
        injection Ge as <-. assert (match_query_entry w A c k vs = []) as H.
        { apply (M k). apply in_map_iff. exists (k, vs). split; [reflexivity | exact (obj_get_in _ _ _ _ GE)]. }
        unfold match_query_entry in H. destruct (obj_get k A) as [av|]; [|discriminate]. exists (map text_value av). split; [reflexivity|].
        apply param_iff. exact H.
      * intros k a Ga. rewrite (entry_get _ k A) in Ga. rewrite (entry_get _ k E). destruct (obj_get k E) as [vs|] eqn:GE; [eauto|]. exfalso.
        destruct (obj_get k A) as [av|] eqn:GA; [|discriminate].
        assert (In (k, [mkMM k KUnexpected]) (unexpected_entries E A)) as J.
        { unfold unexpected_entries. apply in_flat_map. exists (k, av). split; [exact (obj_get_in _ _ _ _ GA)|].
          cbn [fst]. rewrite GE. left. reflexivity. }
        apply (U k) in J. discriminate.
    + intros [H1 H2]. split.
      * intros k l J. apply in_map_iff in J as [[k' vs] [X J]]. cbn [fst snd] in X. injection X as <- <-.
        destruct (H1 k' (map text_value vs)) as (a & Ga & P); [rewrite (entry_get _ k' E), (obj_get_nodup _ _ _ _ NE J); reflexivity|].
        rewrite (entry_get _ k' A) in Ga. unfold match_query_entry. destruct (obj_get k' A) as [av|]; [|discriminate]. injection Ga as <-.
        apply param_iff in P. exact P.
      * intros k l J. unfold unexpected_entries in J. apply in_flat_map in J as [[k' av] [J K]]. cbn [fst] in K.
        destruct (H2 k' (map text_value av)) as (e & Ge); [rewrite (entry_get _ k' A), (obj_get_nodup _ _ _ _ NA J); reflexivity|].
        rewrite (entry_get _ k' E) in Ge. destruct (obj_get k' E); [destruct K | discriminate].
  - split.
    + intro M. split; [|discriminate]. intros k e Ge. rewrite entry_get in Ge. destruct (obj_get k E) as [vs|] eqn:G; [|discriminate]. exfalso.
      assert (@nil mismatch = [mkMM k KAbsent]) by (symmetry; apply (M k), in_map_iff; exists (k, vs); split; [reflexivity | exact (obj_get_in _ _ _ _ G)]).
      discriminate.
    + intros [H _] k l J. apply in_map_iff in J as [[k' vs] [X J]]. destruct (H k' (map text_value vs)) as (a & Ga & _); [|discriminate].
      rewrite entry_get, (obj_get_nodup _ _ _ _ NE J). reflexivity.
  - split.
    + intro M. split; [discriminate|]. intros k a Ga. rewrite entry_get in Ga. destruct (obj_get k A) as [vs|] eqn:G; [|discriminate]. exfalso.
      assert (@nil mismatch = [mkMM k KUnexpected]) by (symmetry; apply (M k), in_map_iff; exists (k, vs); split; [reflexivity | exact (obj_get_in _ _ _ _ G)]).
      discriminate.
    + intros [_ H] k l J. apply in_map_iff in J as [[k' vs] [X J]]. destruct (H k' (map text_value vs)) as (a & Ga); [|discriminate].
      rewrite entry_get, (obj_get_nodup _ _ _ _ NA J). reflexivity.
  - split; [intros _; split; discriminate | intros _ k l []].
Qed.
End QueryTheorem.

(** ** Headers *)
Section HeaderRules.
Variable w : world.
Notation sp := (is_space w).
Notation lower := (to_lower w).
Lemma lowered_ctx : forall c, matchers (header_context w c) = lowered w (matchers c).
Proof. reflexivity. Qed.
Lemma lowered_searched : forall m, searched m -> searched (lowered w m).
Proof. intros m H. exact H. Qed.
Lemma header_value_iff : forall c k i x y, searched (matchers c) ->
  (structured_name lower k -> (x = [] \/ exists h, reads_as sp h x) /\ (exists h, reads_as sp h y)) ->
  (match_header_value w k (N.of_nat i) x y c = [] <-> header_value w (matchers c) k i x y).
Proof.
  intros c k i x y SM WF. unfold match_header_value, header_value_kinds, header_value. cbv zeta. set (m := matchers c) in *.
  unfold ctx_matcher_is_defined, ctx_select_best. fold m. set (p := join path_root (lower k)). fold (item p i).
  assert (forall l : list mismatch_kind, map (mkMM k) l = [] <-> l = []) as ME.
  { intros [|u l]; split; intro H; try reflexivity; discriminate. }
  rewrite ME. destruct (matcher_is_defined m (to_vec p)) eqn:D.
  - rewrite (values_by_rules w m p _ _ SM D). split; [auto|]. intros [H|[[N _]|[N _]]]; [exact H| |]; apply (undefined_at m p SM) in N; congruence.
  - pose proof (proj1 (undefined_at m p SM) D) as N. destruct (matcher_is_defined m (to_vec (item p i))) eqn:D2.
    + rewrite (values_by_rules w m (item p i) _ _ SM D2). split.
      * intro H. right. left. auto.
      * intros [H|[[_ H]|[_ [N2 _]]]]; [destruct (not_by_rules m p _ SM D H) | exact H|]. apply (undefined_at m _ SM) in N2. congruence.
    + pose proof (proj1 (undefined_at m _ SM) D2) as N2.
      assert ((if str_in (lower k) PARAMETERISED_HEADERS then match_parameter_header w (trim w x) (trim w y)
               else if str_matches w (trim w x) (trim w y) REquality false then [] else [KNotEqual]) = [] <-> value_ok w (lower k) x y) as V.
      { unfold value_ok. destruct (str_in _ _); [reflexivity|]. cbn [str_matches]. destruct (str_eqb_spec (trim w x) (trim w y)); split; intro H; try reflexivity; try assumption; try discriminate; contradiction. }
      rewrite V.
      assert (value_ok w (lower k) x y <-> value_agrees sp lower k x y) as VA.
      { destruct (structured_in w k) as [_ _]. pose proof (structured_in w k) as SI. destruct (str_in (lower k) PARAMETERISED_HEADERS) eqn:P.
        - assert (structured_name lower k) as SN by (apply SI; reflexivity). destruct (WF SN) as [[->|RX] RY].
          + rewrite (value_ok_blank w k y (fun _ => RY)). destruct RY as [h RY]. split.
            * intro B. destruct (reads_not_blank w h y RY B).
            * intros [[_ (e' & a' & Re & _)]|[NS _]]; [|contradiction]. exfalso. apply (reads_not_blank w e' [] Re). reflexivity.
          + apply value_ok_agrees. auto.
        - assert (~ structured_name lower k) as SN by (intro Z; apply SI in Z; discriminate).
          apply value_ok_agrees. intro Z. contradiction. }
      rewrite VA. split.
      * intro H. right. right. auto.
      * intros [H|[[_ H]|[_ [_ H]]]]; [destruct (not_by_rules m p _ SM D H) | destruct (not_by_rules m _ _ SM D2 H) | exact H].
Qed.
Lemma header_elements_iff : forall c k e a i, searched (matchers c) ->
  (structured_name lower k -> (forall x, In x e -> x = [] \/ exists h, reads_as sp h x) /\ (forall y, In y a -> exists h, reads_as sp h y)) ->
  (length a <= length e)%nat ->
  (header_elements w k c (N.of_nat i) e a = [] <-> length e = length a /\
   forall n x y, nth_error e n = Some x -> nth_error a n = Some y -> header_value w (matchers c) k (i + n) x y).
Proof.
  intros c k e. induction e as [|x e IH]; intros a i SM WF L; destruct a as [|y a]; cbn [header_elements length] in *; try lia.
  - split; [intros _; split; [reflexivity | intros [|n]; discriminate] | reflexivity].
  - split; [discriminate | intros [H _]; discriminate].
  - rewrite app_nil_iff. replace (N.of_nat i + 1) with (N.of_nat (Datatypes.S i)) by lia.
    rewrite (header_value_iff c k i x y SM), (IH a (Datatypes.S i) SM); [| | lia |].
    + split.
      * intros [H1 [H2 H3]]. split; [congruence|]. intros [|n] x0 y0 E F; cbn [nth_error] in E, F.
        -- injection E as <-. injection F as <-. rewrite Nat.add_0_r. exact H1.
        -- replace (i + Datatypes.S n)%nat with (Datatypes.S i + n)%nat by lia. exact (H3 n x0 y0 E F).
      * intros [Le H]. injection Le as Le. split; [|split; [exact Le|]].
        -- specialize (H O x y eq_refl eq_refl). rewrite Nat.add_0_r in H. exact H.
        -- intros n x0 y0 E F. replace (Datatypes.S i + n)%nat with (i + Datatypes.S n)%nat by lia. exact (H (Datatypes.S n) x0 y0 E F).
    + intro SN. destruct (WF SN) as [A B]. split; intros; [apply A | apply B]; right; assumption.
    + intro SN. destruct (WF SN) as [A B]. split; [apply A | apply B]; left; reflexivity.
Qed.
Lemma lowered_rules : forall m e, In e (cat_rules (lowered w m)) -> exists e', In e' (cat_rules m) /\ snd e = snd e'.
Proof.
  intros m. unfold lowered, header_context. cbn [matchers cat_rules].
  assert (forall (l acc : list (docpath * rulelist)) e, In e (fold_left (fun m pr => hm_insert (to_lower_case lower (fst pr)) (snd pr) m) l acc) ->
    In (snd e) (map snd acc) \/ exists e', In e' l /\ snd e = snd e') as H.
  { assert (forall k (v : rulelist) acc e, In e (hm_insert k v acc) -> snd e = v \/ In (snd e) (map snd acc)) as HI.
    { intros k v. induction acc as [|[k' x] acc IH]; intros e J; cbn [hm_insert] in J.
      - destruct J as [<-|[]]. left. reflexivity.
      - destruct (path_eqb k k'); destruct J as [<-|J]; cbn [snd map]; auto.
        + right. right. apply in_map. exact J.
        + right. left. reflexivity.
        + destruct (IH e J); auto. right. right. assumption. }
    induction l as [|pr l IH]; intros acc e J; cbn [fold_left] in J.
    - left. apply in_map. exact J.
    - destruct (IH _ _ J) as [K|(e' & K & E)].
      + apply in_map_iff in K as (e0 & E0 & K). rewrite <- E0. destruct (HI _ _ _ _ K) as [E|E].
        * right. exists pr. split; [left; reflexivity | congruence].
        * left. exact E.
      + right. exists e'. split; [right; exact K | exact E]. }
  intros e J. destruct (H _ [] e J) as [[]|K]. exact K.
Qed.
Lemma nth_pad : forall (l : list str) n i, (i < n)%nat -> nth_error (pad_values l n) i = Some (nth i l []).
Proof.
  intros l n i L. unfold pad_values. destruct (Nat.ltb_spec i (length l)) as [Li|Li].
  - rewrite nth_error_app1 by exact Li. apply nth_error_nth'. exact Li.
  - rewrite nth_error_app2 by exact Li. rewrite (nth_overflow l) by exact Li. rewrite (nth_error_nth' (repeat (@nil BinNums.N) (n - length l)) []) by (rewrite repeat_length; lia).
    f_equal. apply nth_repeat.
Qed.
(** C106: the comparison of headers under any rules. *)
Theorem C106_headers : forall c E A, searched (matchers c) -> body_variants (matchers c) ->
  unique_names lower A -> readable_headers sp lower E -> readable_headers sp lower A ->
  (matched (match_headers w (Some E) (Some A) c) <-> headers_ok w (matchers c) E A).
Proof.
  intros c E A SM BV U RE RA. rewrite matched_maps. unfold headers_ok. set (m := matchers c) in *.
  assert (forall k vs, In (k, vs) E -> (match_header_entry w A c k vs = [] <-> exists a, has_header lower A k a /\ header_values_ok w m k vs a)) as M.
  2:{ split; intros H k vs J; apply (M k vs J); apply H, J. }
  intros k vs J. unfold match_header_entry. destruct (find_header w A k) as [avs|] eqn:F.
  2:{ split; [discriminate|]. intros [avs [Hh _]]. exfalso. exact (proj1 (find_header_none w A k) F avs Hh). }
  pose proof (find_header_in w A k avs F) as Hh.
  assert ((exists a, has_header lower A k a /\ header_values_ok w m k vs a) <-> header_values_ok w m k vs avs) as X.
  { split; [|intro V; exists avs; auto]. intros [avs0 [Hh0 V]]. rewrite (unique_has w A k avs avs0 U Hh Hh0). exact V. }
  rewrite X. clear X.
  assert (structured_name lower k -> forall y, In y avs -> exists h, reads_as sp h y) as WA.
  { intros SN y K. destruct Hh as [k' [I' L]]. apply (RA k' avs y I'); [|exact K]. unfold structured_name. rewrite L. exact SN. }
  assert (structured_name lower k -> forall x, In x vs -> exists h, reads_as sp h x) as WE by (intros SN x K; exact (RE k vs x J SN K)).
  unfold header_values_ok. cbv zeta. set (p := join path_root (lower k)).
  assert (NEa : negb (nonempty vs) && nonempty avs = true <-> ~ (vs = [] -> avs = [])).
  { destruct vs, avs; cbn; split; intro H; try discriminate; try reflexivity; try (exfalso; apply H; intro; congruence). intro Z. specialize (Z eq_refl). discriminate. }
  destruct (negb (nonempty vs) && nonempty avs) eqn:NV.
  { split; [discriminate|]. pose proof (proj1 NEa eq_refl) as Z. intros [(x & y & -> & -> & _)|(_ & H & _)]; [discriminate | contradiction]. }
  assert (vs = [] -> avs = []) as EE.
  { intro Z. destruct avs as [|y avs]; [reflexivity|]. rewrite Z in NV. discriminate. }
  clear NEa NV.
  assert (MULTI : ~ (length vs = 1%nat /\ length avs = 1%nat) ->
    ((if ctx_matcher_is_defined c p then
            compare_lists_with_matchingrules str str_eqb (header_clone w)
              (fun _ e a c => match_header_value w k 0 e a c)
              p (ctx_select_best c p) vs avs (header_clone w c (matchers c))
          else header_elements w k c 0 (pad_values vs (length avs)) avs) = [] <->
     by_rules m p (fun r cascaded => list_rule (fun m _ x y => header_value w m k 0 x y) (lowered w) (lowered w m) p r cascaded vs avs) \/
     (no_rule_at m p /\ (length vs <= length avs)%nat /\ forall i y, nth_error avs i = Some y -> header_value w m k i (nth i vs []) y))).
  { intros _. unfold ctx_matcher_is_defined, ctx_select_best. fold m. destruct (matcher_is_defined m (to_vec p)) eqn:D.
    - set (okx := fun x => structured_name lower k -> exists h, reads_as sp h x).
      rewrite (list_rules_iff (header_clone w) _ (fun m _ x y => header_value w m k 0 x y) (lowered w) (fun _ _ => eq_refl) (fun _ H => H) okx okx).
      + rewrite (by_rules_iff m p SM). cbv zeta. split; [intro H; left; exact (conj D H)|].
        intros [[_ H]|[N _]]; [exact H|]. apply (undefined_at m p SM) in N. congruence.
      + intros c0 p0 x y S0 Ox Oy. apply (header_value_iff c0 k 0 x y S0). intro SN. split; [right; exact (Ox SN) | exact (Oy SN)].
      + exact SM.
      + intros x K SN. exact (WE SN x K).
      + intros y K SN. exact (WA SN y K).
      + intros vs0 K. exact (variants_here c SM BV p vs0 K D).
    - pose proof (proj1 (undefined_at m p SM) D) as N.
      assert (PL : (length avs <= length (pad_values vs (length avs)))%nat) by (unfold pad_values; rewrite app_length, repeat_length; lia).
      change 0 with (N.of_nat 0). rewrite (header_elements_iff c k (pad_values vs (length avs)) avs 0 SM); [|intro SN; split|exact PL].
      + fold m. split.
        * intros [L H]. right. split; [exact N|]. unfold pad_values in L. rewrite app_length, repeat_length in L. split; [lia|].
          intros i y Ny. apply (H i (nth i vs []) y); [|exact Ny]. assert (i < length avs)%nat by (apply nth_error_Some; congruence).
          apply nth_pad. assumption.
        * intros [H|(_ & L & H)]; [destruct (not_by_rules m p _ SM D H)|]. split; [unfold pad_values; rewrite app_length, repeat_length; lia|].
          intros i x y Nx Ny. specialize (H i y Ny). replace x with (nth i vs []); [exact H|].
          assert (i < length avs)%nat by (apply nth_error_Some; congruence). rewrite nth_pad in Nx by assumption. congruence.
      + intros x K. unfold pad_values in K. apply in_app_iff in K as [K|K]; [right; exact (WE SN x K) | left; apply repeat_spec in K; exact K].
      + exact (WA SN). }
  assert (SINGLE : forall x y, vs = [x] -> avs = [y] -> (match_header_value w k 0 x y c = [] <-> header_value w m k 0 x y)).
  { intros x y -> ->. apply (header_value_iff c k 0 x y SM). intro SN. split; [right; apply WE; [exact SN | left; reflexivity] | apply WA; [exact SN | left; reflexivity]]. }
  assert (NS : ~ (length vs = 1%nat /\ length avs = 1%nat) -> forall P : Prop,
     ((exists x y, vs = [x] /\ avs = [y] /\ header_value w m k 0 x y) \/ (~ (length vs = 1%nat /\ length avs = 1%nat) /\ (vs = [] -> avs = []) /\ P)) <-> P).
  { intros Z P. split; [intros [(x & y & E1 & E2 & _)|(_ & _ & H)]; [exfalso; apply Z; rewrite E1, E2; auto | exact H] | auto]. }
  destruct vs as [|x [|x' vs]], avs as [|y [|y' avs]];
    try (rewrite NS by (cbn; lia); apply MULTI; cbn; lia).
  rewrite (SINGLE x y eq_refl eq_refl). split.
  - intro H. left. exists x, y. auto.
  - intros [(x0 & y0 & E1 & E2 & H)|(H & _)]; [injection E1 as <-; injection E2 as <-; exact H | exfalso; apply H; auto].
Qed.
End HeaderRules.
