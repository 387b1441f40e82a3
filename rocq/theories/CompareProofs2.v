(** Proofs about JSON body comparison with rules. *)
From Coq Require Import Ascii String List Arith NArith ZArith Lia Bool Sorted Permutation.
From Verif Require Import Base PathExp SpecPath PropPath Json MatchingRules SpecRules RulesProofs PropRules
  Matchers JsonCompare SpecMatch CompareProofs.
Import ListNotations.
Open Scope N_scope.
Local Opaque show_N.

(** * Monotonicity in the unexpected key policy *)
Section Mono.
Variable w : world.
Definition mono {T} (cb : docpath -> T -> T -> context -> list mismatch) : Prop :=
  forall p x y m, cb p x y (mkCtx false m) = [] -> cb p x y (mkCtx true m) = [].

Lemma match_keys_mono : forall p e a m, match_keys w (mkCtx false m) p e a = [] -> match_keys w (mkCtx true m) p e a = [].
Proof.
  intros p e a m H. unfold match_keys in *. apply app_eq_nil in H as [H1 H2].
  change (direct_any_matcher (mkCtx true m) p) with (direct_any_matcher (mkCtx false m) p).
  change (ctx_select_best (mkCtx true m) p) with (ctx_select_best (mkCtx false m) p).
  rewrite H2, app_nil_r.
  change (direct_entry_matcher (mkCtx true m) p) with (direct_entry_matcher (mkCtx false m) p).
  destruct (direct_entry_matcher (mkCtx false m) p); [reflexivity|]. cbn [allow] in *.
  destruct (list_eqb str_eqb e a) eqn:E; [|discriminate]. apply keys_eqb in E. subst.
  assert (missing_keys a a = []) as -> by (apply missing_keys_nil; auto). reflexivity.
Qed.

Section Gen.
Variable T : Type.
Variable eqb : T -> T -> bool.
Variable cb : docpath -> T -> T -> context -> list mismatch.
Hypothesis M : mono cb.

Lemma entries_mono : forall p e a m, compare_entries T cb p e a (mkCtx false m) = [] -> compare_entries T cb p e a (mkCtx true m) = [].
Proof.
  intros p e a m. unfold compare_entries. rewrite !flat_map_nil. intros H [k x] I. specialize (H _ I). cbn in *.
  destruct (obj_get k a); [apply M, H | reflexivity].
Qed.
Lemma map_rule_mono : forall r casc p e a m,
  compare_maps_with_matchingrule w T eqb clone_with cb r casc p e a (mkCtx false m) = [] ->
  compare_maps_with_matchingrule w T eqb clone_with cb r casc p e a (mkCtx true m) = [].
Proof.
  intros r casc p e a m. unfold compare_maps_with_matchingrule.
  destruct (negb casc && is_values_matcher r).
  - intro H. apply app_eq_nil in H as [-> H]. cbn [app].
    rewrite flat_map_nil in H |- *. intros [k y] I. specialize (H _ I). cbn [fst snd] in *.
    destruct (obj_get k e).
    + destruct r; cbn [clone_with allow] in *; apply M, H.
    + destruct e as [|[k0 f] e]; [reflexivity|]. destruct r; cbn [clone_with allow] in *; apply M, H.
  - intro H. apply app_eq_nil in H as [-> H]. apply app_eq_nil in H as [H1 H2].
    rewrite (match_keys_mono _ _ _ _ H1), (entries_mono _ _ _ _ H2). reflexivity.
Qed.
Lemma elements_mono : forall p m e a i, match_elements T cb p (mkCtx false m) i e a = [] -> match_elements T cb p (mkCtx true m) i e a = [].
Proof.
  induction e as [|x e IH]; intros a i H; [reflexivity|]. cbn in *. destruct a as [|y a];
  apply app_eq_nil in H as [H1 H2]; rewrite (IH _ _ H2), app_nil_r.
  - exact H1.
  - apply M, H1.
Qed.
Lemma variant_mono : forall p e a m v, match_variant T clone_with cb p e a (mkCtx false m) v = [] -> match_variant T clone_with cb p e a (mkCtx true m) v = [].
Proof.
  intros p e a m v. unfold match_variant. destruct (nth_error e _) as [t|]; [|auto].
  set (f := fun y => match cb path_root t y (clone_with (mkCtx false m) (snd v)) with [] => true | _ => false end).
  set (g := fun y => match cb path_root t y (clone_with (mkCtx true m) (snd v)) with [] => true | _ => false end).
  assert (forall y, f y = true -> g y = true) as FG.
  { intros y. unfold f, g, clone_with. cbn [allow]. pose proof (M path_root t y (snd v)) as My.
    destruct (cb path_root t y (mkCtx false (snd v))); [|discriminate]. rewrite My; reflexivity. }
  destruct (existsb f a) eqn:E; [|discriminate]. intros _.
  assert (existsb g a = true) as ->; [|reflexivity].
  apply existsb_exists in E as [y [I E]]. apply existsb_exists. exists y. auto.
Qed.
Lemma list_rule_mono : forall r p e a m casc,
  compare_lists_with_matchingrule T eqb clone_with cb r p e a (mkCtx false m) casc = [] ->
  compare_lists_with_matchingrule T eqb clone_with cb r p e a (mkCtx true m) casc = [].
Proof.
  intros r p e a m casc. unfold compare_lists_with_matchingrule. destruct e as [|f e]; [auto|].
  destruct r; try (intro H; apply app_eq_nil in H as [-> H]; apply elements_mono, H).
  - rewrite !flat_map_nil. intros H v I. apply variant_mono, H, I.
  - destruct casc; [auto|]. intro H; apply app_eq_nil in H as [-> H]. apply elements_mono, H.
Qed.
Lemma list_rules_mono : forall p rl e a m,
  compare_lists_with_matchingrules T eqb clone_with cb p rl e a (mkCtx false m) = [] ->
  compare_lists_with_matchingrules T eqb clone_with cb p rl e a (mkCtx true m) = [].
Proof.
  intros p rl e a m. unfold compare_lists_with_matchingrules. destruct (rl_is_empty rl); [auto|].
  destruct (rl_logic rl).
  - rewrite <- !flat_map_concat_map, !flat_map_nil. intros H r I. apply list_rule_mono, H, I.
  - set (f := fun r => compare_lists_with_matchingrule T eqb clone_with cb r p e a (mkCtx false m) (rl_cascaded rl)).
    set (g := fun r => compare_lists_with_matchingrule T eqb clone_with cb r p e a (mkCtx true m) (rl_cascaded rl)).
    assert (forall r, f r = [] -> g r = []) as FG by (intros r; apply list_rule_mono).
    destruct (forallb nonempty (map f (rl_rules rl))) eqn:F.
    + intro H. rewrite <- flat_map_concat_map, flat_map_nil in H.
      destruct (forallb nonempty (map g (rl_rules rl))); [|reflexivity].
      rewrite <- flat_map_concat_map, flat_map_nil. auto.
    + intros _. assert (forallb nonempty (map g (rl_rules rl)) = false) as ->; [|reflexivity].
      revert F. induction (rl_rules rl) as [|r rs IH]; [auto|]. cbn.
      destruct (f r) eqn:Fr; cbn; [rewrite (FG _ Fr); reflexivity|].
      intro F. rewrite (IH F). apply andb_false_r.
Qed.
End Gen.

Lemma fuel_mono : forall n, mono (compare_fuel w n).
Proof.
  induction n as [|n IH]; intros p e a m H; [exact H|].
  cbn in *. unfold compare_step in *. destruct e; auto.
  - destruct a; auto. unfold compare_lists in *.
    change (ctx_matcher_is_defined (mkCtx true m) p) with (ctx_matcher_is_defined (mkCtx false m) p).
    destruct (ctx_matcher_is_defined (mkCtx false m) p).
    + apply list_rules_mono in H; auto.
    + destruct (negb (nonempty l) && nonempty l0); [exact H|]. apply app_eq_nil in H as [H ->].
      rewrite app_nil_r. unfold compare_list_content in *. apply elements_mono; assumption.
  - destruct a; auto. unfold compare_maps in *. cbn [allow negb] in *.
    rewrite andb_false_r. cbn [andb]. rewrite andb_true_r in H. destruct (negb (nonempty m0) && nonempty m1); [discriminate|].
    change (ctx_matcher_is_defined (mkCtx true m) p) with (ctx_matcher_is_defined (mkCtx false m) p).
    change (ctx_select_best (mkCtx true m) p) with (ctx_select_best (mkCtx false m) p).
    destruct (ctx_matcher_is_defined (mkCtx false m) p).
    + rewrite flat_map_nil in H |- *. intros r I. apply map_rule_mono; auto.
    + apply app_eq_nil in H as [H1 H2]. rewrite (match_keys_mono _ _ _ _ H1), (entries_mono _ _ IH _ _ _ _ H2). reflexivity.
Qed.
Lemma compare_mono : forall p e a m, compare_json w p e a (mkCtx false m) = [] -> compare_json w p e a (mkCtx true m) = [].
Proof. intros p e a m. apply fuel_mono. Qed.
End Mono.

(** * A single rule list in the context *)
Lemma to_vec_join : forall p part, to_vec (join p part) = to_vec p ++ [token_display (part_token part)].
Proof.
  intros p part. unfold to_vec, join, part_token, push_star, push_star_index, push_index, push_field, push.
  destruct (str_eqb part (S_ "*")); [|destruct (str_eqb part (S_ "[*]")); [|destruct (parse_usize part)]];
  cbn [path_tokens]; rewrite map_app; reflexivity.
Qed.
Lemma accepts_app : forall ts path l, accepts ts path -> accepts ts (path ++ l).
Proof. intros ts path l A. induction A; cbn; constructor; assumption. Qed.
Lemma accepts_join : forall ts p part, accepts ts (to_vec p) -> accepts ts (to_vec (join p part)).
Proof. intros. rewrite to_vec_join. apply accepts_app. assumption. Qed.
Lemma vec_len : forall p, length (to_vec p) = length (path_tokens p).
Proof. intro p. apply map_length. Qed.
Lemma join_len : forall p part, length (path_tokens (join p part)) = S (length (path_tokens p)).
Proof. intros. rewrite <- !vec_len, to_vec_join, app_length. cbn. lia. Qed.

Section Single.
Variable c : context.
Variable q : docpath.
Variable rl : rulelist.
Hypothesis Only : only_rule c q rl.
Hypothesis Short : (length (path_tokens q) <= 58)%nat.

Lemma single_defined : forall p, accepts (path_tokens q) (to_vec p) -> ctx_matcher_is_defined c p = true.
Proof.
  intros p A. destruct Only as [Nm Rs].
  unfold ctx_matcher_is_defined, matcher_is_defined, resolve_matchers_for_path. rewrite Nm.
  unfold cat_is_empty, cat_filter. cbn [cat_rules]. rewrite Rs. cbn [filter fst].
  assert (matches_path q (to_vec p) = true) as -> by (apply weight_pos_iff; assumption). reflexivity.
Qed.
Lemma single_undefined : forall p, ~ accepts (path_tokens q) (to_vec p) -> ctx_matcher_is_defined c p = false.
Proof.
  intros p A. destruct Only as [Nm Rs].
  unfold ctx_matcher_is_defined, matcher_is_defined, resolve_matchers_for_path. rewrite Nm.
  unfold cat_is_empty, cat_filter. cbn [cat_rules]. rewrite Rs. cbn [filter fst].
  destruct (matches_path q (to_vec p)) eqn:E; [|reflexivity]. exfalso. apply A. apply weight_pos_iff; assumption.
Qed.
Lemma single_best : forall p, accepts (path_tokens q) (to_vec p) ->
  ctx_select_best c p = as_cascaded rl (Nat.ltb (length (path_tokens q)) (length (path_tokens p))).
Proof.
  intros p A. destruct Only as [Nm Rs]. unfold ctx_select_best, select_best_matcher. rewrite Nm.
  unfold max_by_path. rewrite Rs. cbn [filter fst].
  assert ((0 <? fst (path_weight q (to_vec p))) = true) as -> by (apply weight_pos_iff; assumption).
  cbn [max_by_key]. f_equal. rewrite vec_len. apply accepts_len in A. rewrite vec_len in A.
  destruct (Nat.ltb_spec (length (path_tokens q)) (length (path_tokens p))) as [L|L].
  - apply negb_true_iff, N.eqb_neq. lia.
  - apply negb_false_iff, N.eqb_eq. lia.
Qed.
Lemma single_exact : forall p, cat_rules (matchers_for_exact_path c p) = [] \/ cat_rules (matchers_for_exact_path c p) = [(q, rl)].
Proof.
  intro p. destruct Only as [Nm Rs]. unfold matchers_for_exact_path. rewrite Nm. unfold cat_filter. cbn [cat_rules].
  rewrite Rs. cbn [filter]. destruct (matches_path_exactly _ _); auto.
Qed.
Lemma single_keys : forall w p e a, existsb entry_rule (rl_rules rl) = false -> accepts (path_tokens q) (to_vec p) ->
  match_keys w c p e a = [] <-> if allow c then (forall k, In k e -> In k a) else e = a.
Proof.
  intros w p e a NE A. unfold match_keys.
  assert (direct_entry_matcher c p = false) as ->.
  { unfold direct_entry_matcher, as_rule_list. destruct (single_exact p) as [-> | ->]; [reflexivity | exact NE]. }
  assert (flat_map (each_key_mismatches w p a) (rl_rules (ctx_select_best c p)) = []) as ->.
  { rewrite (single_best p A). cbn. apply flat_map_nil. intros r I.
    destruct r; try reflexivity. exfalso. assert (existsb entry_rule (rl_rules rl) = true).
    { apply existsb_exists. exists (REachKey d). split; [exact I | reflexivity]. } congruence. }
  assert (forall b : bool, (if b then [] else []) = @nil mismatch) as BN by (intros []; reflexivity).
  rewrite BN, app_nil_r. destruct (allow c).
  - rewrite <- missing_keys_nil. destruct (missing_keys e a); split; congruence.
  - rewrite <- keys_eqb. destruct (list_eqb str_eqb e a); split; congruence.
Qed.
End Single.

(** * Type rules *)
Lemma pad_nth : forall (e : list json) n i, (i < n)%nat -> nth_error (pad_expected json e n) i =
  match nth_or_first e i with Some x => Some x | None => None end.
Proof.
  intros e n i L. unfold pad_expected, nth_or_first. destruct e as [|f e]; [destruct i; reflexivity|].
  destruct (Nat.ltb_spec i (length (f :: e))) as [Li|Li].
  - rewrite nth_error_app1 by exact Li. destruct (nth_error (f :: e) i) eqn:E; [reflexivity|].
    apply nth_error_None in E. lia.
  - rewrite nth_error_app2 by exact Li. assert (nth_error (f :: e) i = None) as -> by (apply nth_error_None; exact Li).
    rewrite (nth_error_nth' _ f) by (rewrite repeat_length; lia). rewrite nth_repeat. reflexivity.
Qed.

Lemma nth_elements : forall (cb : docpath -> json -> json -> context -> list mismatch) p c e a i,
  (forall j, ctx_matcher_is_defined c (join p (show_N j)) = true) ->
  match_elements json cb p c i e a = [] <->
  (forall n x y, nth_error e n = Some x -> nth_error a n = Some y -> cb (join p (show_N (i + N.of_nat n))) x y c = []).
Proof.
  intros cb p c e a i D. revert a i. induction e as [|x e IH]; intros a i; cbn [match_elements].
  - split; [intros _ [|n]; discriminate | reflexivity].
  - destruct a as [|y a].
    + rewrite D. cbn [app]. rewrite IH. split; intros H n u v; [intros _; destruct n; discriminate|].
      intros _; destruct n; discriminate.
    + split.
      * intro H. apply app_eq_nil in H as [H1 H2]. intros [|n] u v; cbn [nth_error].
        -- intros E1 E2. injection E1 as <-. injection E2 as <-. rewrite N.add_0_r. exact H1.
        -- intros E1 E2. pose proof (proj1 (IH _ _) H2 n u v E1 E2) as G.
           rewrite Nat2N.inj_succ. replace (i + N.succ (N.of_nat n)) with (i + 1 + N.of_nat n) by lia. exact G.
      * intro H. assert (cb (join p (show_N i)) x y c = []) as ->.
        { specialize (H 0%nat x y eq_refl eq_refl). rewrite N.add_0_r in H. exact H. }
        cbn [app]. apply IH. intros n u v E1 E2. specialize (H (S n) u v E1 E2).
        rewrite Nat2N.inj_succ in H. replace (i + N.succ (N.of_nat n)) with (i + 1 + N.of_nat n) in H by lia. exact H.
Qed.

Lemma same_type_iff : forall e a, same_json_type e a = true <-> type_of e = type_of a.
Proof. intros e a; destruct e, a; cbn; split; congruence. Qed.

Section TypeRule.
Variable w : world.
Variable c : context.
Variable q : docpath.
Variable r : rule.
Variable lg : logic.
Variable cs : bool.
Hypothesis TR : type_rule r.
Hypothesis Only : only_rule c q (mkRules [r] lg cs).
Hypothesis Short : (length (path_tokens q) <= 58)%nat.

Definition bound_here (p : docpath) (e a : json) : Prop :=
  length (path_tokens p) = length (path_tokens q) -> size_respected r e a.

Lemma list_bound : forall T eqb (e a : list T) casc, (0 < length e)%nat ->
  list_matches eqb e a r casc = true <-> (casc = false -> size_allowed r (len a)).
Proof.
  intros T eqb e a casc _. destruct r, casc; cbn in TR; try contradiction; cbn [list_matches negb andb size_allowed].
  all: try (split; [intros _ E; discriminate | intros _; reflexivity]); try (split; [intros _ _; exact I | reflexivity]).
  all: repeat match goal with |- context [?x <? ?y] => destruct (N.ltb_spec x y) end; cbn;
    split; intro Q; try discriminate; try reflexivity; intros; try lia; specialize (Q eq_refl); lia.
Qed.
Lemma list_rule_type : forall T eqb cb p (e a : list T) c casc, e <> [] ->
  compare_lists_with_matchingrule T eqb clone_with cb r p e a c casc =
  (if list_matches eqb e a r casc then [] else [mm p (KRule r)]) ++ match_list_contents T cb p e a c.
Proof. intros T eqb cb p e a d casc N. destruct e; [congruence|]. destruct r; cbn in TR; try contradiction; reflexivity. Qed.
Lemma map_bound : forall T eqb (e a : list (str * T)) casc,
  map_matches eqb e a r casc = true <-> (casc = false -> size_allowed r (len a)).
Proof.
  intros T eqb e a casc. destruct r, casc; cbn in TR; try contradiction; cbn [map_matches negb andb size_allowed].
  all: try (split; [intros _ E; discriminate | intros _; reflexivity]); try (split; [intros _ _; exact I | reflexivity]).
  all: repeat match goal with |- context [?x <? ?y] => destruct (N.ltb_spec x y) end; cbn;
    split; intro Q; try discriminate; try reflexivity; intros; try lia; specialize (Q eq_refl); lia.
Qed.
Lemma scalar_type : forall e a casc, is_scalar e -> json_matches w e a r casc = true <-> type_of e = type_of a.
Proof.
  intros e a casc S. destruct r; cbn in TR; try contradiction; rewrite <- same_type_iff; cbn [json_matches];
  try reflexivity; destruct e; cbn in S; try contradiction; reflexivity.
Qed.

Theorem compare_type_rule : forall e a p, json_wf e -> json_wf a -> accepts (path_tokens q) (to_vec p) ->
  compare_json w p e a c = [] <-> shape (allow c) e a /\ bound_here p e a.
Proof.
  assert (forall p part, accepts (path_tokens q) (to_vec p) -> forall e a, bound_here (join p part) e a) as BJ.
  { intros p part A e a E. rewrite join_len in E. apply accepts_len in A. rewrite vec_len in A. lia. }
  assert (forall p, accepts (path_tokens q) (to_vec p) ->
    (length (path_tokens q) <? length (path_tokens p))%nat = false <-> length (path_tokens p) = length (path_tokens q)) as CS.
  { intros p A. apply accepts_len in A. rewrite vec_len in A. rewrite Nat.ltb_ge. lia. }
  induction e using json_ind'; intros a p We Wa A; rewrite compare_unfold.
  1-4: cbn [compare_step]; unfold compare_values; rewrite (single_defined c q _ Only Short p A),
    (single_best c q _ Only Short p A); unfold match_values, as_cascaded; cbn [rl_is_empty rl_rules rl_logic rl_cascaded forallb existsb filter];
    match goal with |- context [json_matches w ?e ?a r ?b] =>
      pose proof (scalar_type e a b I) as ST; destruct (json_matches w e a r b) eqn:JM end;
    [ (split; [intros _; split; [constructor; [exact I | apply ST; reflexivity] |
         intros _; pose proof (proj1 ST eq_refl) as TY; destruct a; cbn in TY; try discriminate; exact I]
      | intros _; destruct lg; reflexivity])
    | (split; [destruct lg; discriminate
      | intros [G _]; inversion G; subst; apply ST in H0; discriminate]) ].
  - destruct a as [| | | |a|]; try (split; [discriminate | intros [G _]; inversion G as [? ? S _| |]; inversion S]).
    cbn [compare_step]. unfold compare_lists. rewrite (single_defined c q _ Only Short p A).
    rewrite (single_best c q _ Only Short p A). unfold compare_lists_with_matchingrules, as_cascaded.
    cbn [rl_is_empty rl_rules rl_logic rl_cascaded map forallb concat].
    set (casc := (length (path_tokens q) <? length (path_tokens p))%nat).
    assert (forall X : list mismatch, match lg with And => X ++ [] | Or => if nonempty X && true then X ++ [] else [] end = [] <-> X = []) as L1.
    { intro X. rewrite app_nil_r. destruct lg; [reflexivity|]. destruct X; cbn; split; congruence. }
    rewrite L1. clear L1.
    apply json_wf_arr in We, Wa. rewrite Forall_forall in H, We, Wa.
    assert (shape (allow c) (JArr l) (JArr a) <->
      (forall i x y, nth_or_first l i = Some x -> nth_error a i = Some y -> shape (allow c) x y)) as ->.
    { split; [|apply sh_arr]. intro G; inversion G as [? ? S _| |]; subst; [inversion S | assumption]. }
    destruct l as [|f l].
    { split; [intros _ | reflexivity]. split; [intros [|i] x y E; discriminate E | intro; exact I]. }
    remember (f :: l) as l' eqn:El.
    rewrite list_rule_type by (rewrite El; discriminate).
    assert ((if list_matches json_eqb l' a r casc then [] else [mm p (KRule r)]) ++ match_list_contents json (compare_json w) p l' a c = [] <->
            list_matches json_eqb l' a r casc = true /\ match_list_contents json (compare_json w) p l' a c = []) as E1.
    { destruct (list_matches json_eqb l' a r casc); cbn; split; try discriminate; auto; intros [? ?]; auto; discriminate. }
    rewrite E1. rewrite list_bound by (rewrite El; cbn; lia).
    unfold match_list_contents. rewrite nth_elements by (intro j; apply (single_defined c q _ Only Short), accepts_join, A).
    split.
    + intros [B N]. split.
      * intros i x y Ex Ey. assert (i < length a)%nat as Li by (apply nth_error_Some; congruence).
        assert (nth_error (pad_expected json l' (length a)) i = Some x) as Ep by (rewrite pad_nth by exact Li; rewrite Ex; reflexivity).
        specialize (N i x y Ep Ey).
        assert (In x l') as Ix by (eapply pad_in, nth_error_In, Ep).
        apply nth_error_In in Ey.
        apply (H x Ix) in N; [exact (proj1 N) | apply We, Ix | apply Wa, Ey | apply accepts_join, A].
      * intro E. rewrite El. cbn. apply B, CS; assumption.
    + intros [N B]. split.
      * intro E. apply CS in E; [|exact A]. specialize (B E). rewrite El in B. exact B.
      * intros n x y Ex Ey. assert (n < length a)%nat as Li by (apply nth_error_Some; congruence).
        assert (In x l') as Ix by (eapply pad_in, nth_error_In, Ex).
        rewrite pad_nth in Ex by exact Li. destruct (nth_or_first l' n) eqn:En; [|discriminate]. injection Ex as ->.
        specialize (N n x y En Ey). apply nth_error_In in Ey.
        apply (H x Ix); [apply We, Ix | apply Wa, Ey | apply accepts_join, A |]. split; [exact N | apply BJ, A].
  - destruct a as [| | | | |a]; try (split; [discriminate | intros [G _]; inversion G as [? ? S _| |]; inversion S]).
    cbn [compare_step]. unfold compare_maps. rewrite (single_defined c q _ Only Short p A).
    rewrite (single_best c q _ Only Short p A). cbn [as_cascaded rl_rules rl_cascaded flat_map].
    set (casc := (length (path_tokens q) <? length (path_tokens p))%nat). rewrite app_nil_r.
    apply json_wf_obj in We as [Se We]. apply json_wf_obj in Wa as [Sa Wa].
    rewrite Forall_forall in H, We, Wa.
    assert (shape (allow c) (JObj m) (JObj a) <->
      (forall k v, obj_get k m = Some v -> exists v', obj_get k a = Some v' /\ shape (allow c) v v') /\
      (allow c = false -> forall k, obj_get k m = None -> obj_get k a = None)) as AO.
    { split; [intro G; inversion G as [? ? S _| |]; subst; [inversion S | split; assumption]|]. intros [P B]. apply sh_obj; assumption. }
    rewrite AO. clear AO.
    destruct (negb (nonempty m) && negb (allow c) && nonempty a) eqn:EM.
    + split; [discriminate|]. intros [[_ B] _]. apply andb_true_iff in EM as [EM N2]. apply andb_true_iff in EM as [N0 N1].
      destruct m; [|discriminate]. destruct (allow c); [discriminate|]. destruct a as [|[k v] a]; [discriminate|].
      specialize (B eq_refl k eq_refl). cbn in B. rewrite str_eqb_refl in B. discriminate.
    + assert (existsb entry_rule (rl_rules (mkRules [r] lg cs)) = false) as NE
        by (destruct r; cbn in TR; try contradiction; reflexivity).
      assert (is_values_matcher r = false) as NV by (destruct r; cbn in TR; try contradiction; reflexivity).
      unfold compare_maps_with_matchingrule. rewrite NV, andb_false_r.
      assert (compare_entries json (compare_json w) p m a c = [] <->
            (forall k v v', obj_get k m = Some v -> obj_get k a = Some v' -> shape (allow c) v v')) as EN.
      { rewrite entries_nil by (apply sorted_nodup, Se). split; intros G k v v' Ge Ga; specialize (G k v v' Ge Ga);
          apply obj_get_in in Ge, Ga.
        - apply (H (k, v) Ge) in G; [exact (proj1 G) | exact (We _ Ge) | exact (Wa _ Ga) | apply accepts_join, A].
        - apply (H (k, v) Ge); [exact (We _ Ge) | exact (Wa _ Ga) | apply accepts_join, A | split; [exact G | apply BJ, A]]. }
      pose proof (map_bound json json_eqb m a casc) as MB.
      pose proof (single_keys c q _ Only Short w p (keys m) (keys a) NE A) as SK.
      destruct (map_matches json_eqb m a r casc).
      2:{ split; [discriminate|]. intros [_ B]. exfalso.
          assert (false = true) as F; [|discriminate F]. apply MB. intro E. apply CS in E; [|exact A]. exact (B E). }
      assert (bound_here p (JObj m) (JObj a)) as BH.
      { intro E. apply CS in E; [|exact A]. exact (proj1 MB eq_refl E). }
      cbn [app]. split.
      * intro E. split; [|exact BH]. apply app_eq_nil in E as [E1 E2]. pose proof (proj1 EN E2) as E3. apply SK in E1.
        destruct (allow c) eqn:AL.
        -- split; [|discriminate]. intros k v G.
           assert (In k (keys a)) as I by (apply E1, obj_get_keys; eauto).
           apply obj_get_keys in I as [v' G']. eauto.
        -- split.
           ++ intros k v G. assert (In k (keys a)) as I by (rewrite <- E1; apply obj_get_keys; eauto).
              apply obj_get_keys in I as [v' G']. eauto.
           ++ intros _ k G. apply obj_get_none in G. apply obj_get_none. rewrite <- E1. exact G.
      * intros [[P B] _]. assert (match_keys w c p (keys m) (keys a) = []) as ->.
        { apply SK.
          assert (forall k, In k (keys m) -> In k (keys a)) as S1.
          { intros k I. apply obj_get_keys in I as [v G]. apply P in G as [v' [G _]]. apply obj_get_keys. eauto. }
          destruct (allow c); [exact S1|]. apply sorted_keys_eq; try assumption. intro k. split; [apply S1|].
          intro I. destruct (obj_get k m) eqn:G; [apply obj_get_keys; eauto|]. apply (B eq_refl) in G.
          apply obj_get_none in G. contradiction. }
        cbn [app]. apply (proj2 EN). intros k v v' Ge Ga. apply P in Ge as [v2 [Ga2 Ag]]. congruence.
Qed.
End TypeRule.
