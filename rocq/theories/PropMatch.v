(** Properties C14 - C20, C34, C36, C38, C39: matching of values and bodies. *)
From Coq Require Import Ascii String List Arith NArith ZArith Lia Bool Sorted Permutation.
From Verif Require Import Base PathExp SpecPath PropPath Json MatchingRules SpecRules RulesProofs PropRules
  Matchers JsonCompare SpecMatch CompareProofs CompareProofs2 CompareProofs3.
Import ListNotations.
Open Scope N_scope.
Local Opaque show_N.

Definition num_of (n : N) : json := JNum (PosInt n).

(** ** C14: AND / OR *)
(** [sat r casc] stands for "the value satisfies rule [r]" for any kind of value. *)
Theorem C14_and_needs_every_rule : forall (sat : rule -> bool -> bool) rl,
  rl_rules rl <> [] -> rl_logic rl = And ->
  (match_values sat rl = [] <-> forall r, In r (rl_rules rl) -> sat r (rl_cascaded rl) = true).
Proof.
  intros sat rl NE L. unfold match_values, rl_is_empty. rewrite L. destruct (rl_rules rl) as [|r0 rs]; [congruence|].
  destruct (forallb _ (r0 :: rs)) eqn:F.
  - split; [intros _ | reflexivity]. rewrite forallb_forall in F. exact F.
  - split.
    + intros E r I. destruct (sat r (rl_cascaded rl)) eqn:S; [reflexivity|]. exfalso.
      apply map_eq_nil in E. assert (In r []) as []. rewrite <- E. apply filter_In. rewrite S. auto.
    + intro H. exfalso. rewrite (proj2 (forallb_forall _ _) H) in F. discriminate.
Qed.
Theorem C14_or_needs_one_rule : forall (sat : rule -> bool -> bool) rl,
  rl_rules rl <> [] -> rl_logic rl = Or ->
  (match_values sat rl = [] <-> exists r, In r (rl_rules rl) /\ sat r (rl_cascaded rl) = true).
Proof.
  intros sat rl NE L. unfold match_values, rl_is_empty. rewrite L. destruct (rl_rules rl) as [|r0 rs]; [congruence|].
  destruct (existsb _ (r0 :: rs)) eqn:F.
  - split; [intros _ | reflexivity]. apply existsb_exists in F. exact F.
  - split; [|intro H; apply existsb_exists in H; congruence].
    intro E. exfalso. apply map_eq_nil in E. cbn [existsb] in F. apply orb_false_iff in F as [F _].
    cbn [filter] in E. rewrite F in E. discriminate.
Qed.
Theorem C14_no_rules_is_a_mismatch : forall (sat : rule -> bool -> bool) rl,
  rl_rules rl = [] -> match_values sat rl = [KNoMatcher].
Proof. intros sat rl E. unfold match_values, rl_is_empty. rewrite E. reflexivity. Qed.
(** What is reported: exactly the rules that are not satisfied, in order. *)
Theorem C14_reports_the_failing_rules : forall (sat : rule -> bool -> bool) rl,
  rl_rules rl <> [] -> match_values sat rl <> [] ->
  match_values sat rl = map KRule (filter (fun r => negb (sat r (rl_cascaded rl))) (rl_rules rl)).
Proof.
  intros sat rl NE. unfold match_values, rl_is_empty. destruct (rl_rules rl); [congruence|].
  destruct (rl_logic rl).
  - destruct (forallb _ _); [congruence | reflexivity].
  - destruct (existsb _ _); [congruence | reflexivity].
Qed.

(** A scalar of a JSON body, governed by the rules written at path [q]. *)
Theorem C14_body_scalar_single_entry : forall w c q rl p e a,
  only_rule c q rl -> (length (path_tokens q) <= 58)%nat -> accepts (path_tokens q) (to_vec p) ->
  rl_rules rl <> [] -> is_scalar e ->
  let holds r := json_matches w e a r (Nat.ltb (length (path_tokens q)) (length (path_tokens p))) = true in
  (compare_json w p e a c = [] <->
   match rl_logic rl with
   | And => forall r, In r (rl_rules rl) -> holds r
   | Or => exists r, In r (rl_rules rl) /\ holds r
   end).
Proof.
  intros w c q rl p e a O S A NE SC holds.
  assert (compare_json w p e a c = map (mm p) (match_values (json_matches w e a)
    (as_cascaded rl (Nat.ltb (length (path_tokens q)) (length (path_tokens p)))))) as E.
  { rewrite compare_unfold. rewrite <- (single_best c q rl O S p A).
    destruct e; cbn in SC; try contradiction; cbn [compare_step]; unfold compare_values;
    rewrite (single_defined c q rl O S p A); reflexivity. }
  rewrite E. transitivity (match_values (json_matches w e a) (as_cascaded rl (Nat.ltb (length (path_tokens q)) (length (path_tokens p)))) = []).
  { split; [apply map_eq_nil | intros ->; reflexivity]. }
  destruct (rl_logic rl) eqn:L.
  - exact (C14_and_needs_every_rule (json_matches w e a) (as_cascaded rl _) NE L).
  - exact (C14_or_needs_one_rule (json_matches w e a) (as_cascaded rl _) NE L).
Qed.

(** An array: every rule (AND), or at least one (OR), must accept it alone. *)
Theorem C14_body_array_single_entry : forall w c q rl p e a,
  only_rule c q rl -> (length (path_tokens q) <= 58)%nat -> accepts (path_tokens q) (to_vec p) ->
  rl_rules rl <> [] ->
  let holds r := compare_lists_with_matchingrule json json_eqb clone_with (compare_json w) r p e a c
                   (Nat.ltb (length (path_tokens q)) (length (path_tokens p))) = [] in
  (compare_json w p (JArr e) (JArr a) c = [] <->
   match rl_logic rl with
   | And => forall r, In r (rl_rules rl) -> holds r
   | Or => exists r, In r (rl_rules rl) /\ holds r
   end).
Proof.
  intros w c q rl p e a O S A NE holds. rewrite compare_unfold. cbn [compare_step]. unfold compare_lists.
  rewrite (single_defined c q rl O S p A), (single_best c q rl O S p A).
  unfold compare_lists_with_matchingrules, as_cascaded, rl_is_empty. cbn [rl_rules rl_logic rl_cascaded].
  destruct (rl_rules rl) as [|r0 rs] eqn:R; [congruence|]. rewrite <- R in *.
  set (f := fun r => compare_lists_with_matchingrule json json_eqb clone_with (compare_json w) r p e a c
                   (Nat.ltb (length (path_tokens q)) (length (path_tokens p)))) in *.
  rewrite <- flat_map_concat_map. destruct (rl_logic rl).
  - apply flat_map_nil.
  - destruct (forallb nonempty (map f (rl_rules rl))) eqn:F.
    + rewrite forallb_forall in F. split.
      * intro E. rewrite flat_map_nil in E. exists r0. rewrite R. split; [left; reflexivity|]. apply E. rewrite R. left; reflexivity.
      * intros [r [I H]]. apply (in_map f) in I. apply F in I. unfold holds in H. fold (f r) in H. rewrite H in I. discriminate.
    + split; [intros _ | reflexivity].
      clear R. induction (rl_rules rl) as [|r l IH]; [discriminate|]. cbn in F.
      destruct (f r) eqn:Fr.
      * exists r. split; [left; reflexivity | exact Fr].
      * cbn in F. destruct l as [|r' l']; [discriminate|]. destruct (IH ltac:(discriminate) F) as [x [I H]].
        exists x. split; [right; exact I | exact H].
Qed.

(** On an object OR is treated as AND: a document that satisfies the second of
    two alternatives is refused. *)
Theorem C14_why_not_objects : forall w,
  let e := JObj [(S_ "a", num_of 1)] in
  let a := JObj [(S_ "a", num_of 2)] in
  let rules rs lg := mkCtx true (mkCat CBody [(path_root, mkRules rs lg false)]) in
  compare_json w path_root e a (rules [RType] Or) = [] /\
  compare_json w path_root e a (rules [RMinType 5; RType] Or) <> [].
Proof. intro w. split; [reflexivity | discriminate]. Qed.
(** A rule list without rules makes an object accept anything below it. *)
Theorem C14_why_a_rule : forall w,
  compare_json w path_root (JObj [(S_ "a", num_of 1)]) (JObj []) (mkCtx true (mkCat CBody [(path_root, mkRules [] And false)])) = [] /\
  compare_json w path_root (num_of 1) (num_of 1) (mkCtx true (mkCat CBody [(path_root, mkRules [] And false)])) <> [].
Proof. intro w. split; [reflexivity | discriminate]. Qed.

Example C14_example : forall w,
  only_rule (mkCtx true (mkCat CBody [(path_root, mkRules [RInteger; RNull] Or false)])) path_root (mkRules [RInteger; RNull] Or false) /\
  accepts (path_tokens path_root) (to_vec path_root) /\
  compare_json w path_root (num_of 1) JNull (mkCtx true (mkCat CBody [(path_root, mkRules [RInteger; RNull] Or false)])) = [] /\
  compare_json w path_root (num_of 1) (JStr (S_ "x")) (mkCtx true (mkCat CBody [(path_root, mkRules [RInteger; RNull] Or false)])) <> [].
Proof. intro w. repeat split; try discriminate. repeat constructor. Qed.

(** ** C15: type rules on one value *)
Theorem C15_type_rule_compares_types : forall w e a cascaded,
  json_matches w e a RType cascaded = true <-> type_of e = type_of a.
Proof. intros. apply same_type_iff. Qed.
(** The sized rules: same type and, for arrays at their own path, the bounds. *)
Theorem C15_sized_rules : forall w r e a cascaded, type_rule r ->
  (json_matches w e a r cascaded = true <->
   type_of e = type_of a /\
   (cascaded = false -> forall l l', e = JArr l -> a = JArr l' -> size_allowed r (len l'))).
Proof.
  intros w r e a casc TR.
  destruct r; cbn in TR; try contradiction; cbn [json_matches].
  - rewrite same_type_iff. split; [intro E; split; [exact E | intros; exact I] | intros [E _]; exact E].
  - destruct e as [| | | |l|], a as [| | | |l'|]; cbn [same_json_type type_of]; try (split; [discriminate | intros [E _]; discriminate E]);
      try (split; [intros _; split; [reflexivity | intros _ ? ? E; discriminate E] | reflexivity]).
    destruct casc; cbn.
    + split; [intros _; split; [reflexivity | discriminate] | reflexivity].
    + destruct (N.ltb_spec (len l') min); cbn; split; try discriminate.
      * intros [_ Q]. specialize (Q eq_refl _ _ eq_refl eq_refl). lia.
      * intros _. split; [reflexivity|]. intros _ ? ? E1 E2. injection E2 as <-. lia.
      * reflexivity.
  - destruct e as [| | | |l|], a as [| | | |l'|]; cbn [same_json_type type_of]; try (split; [discriminate | intros [E _]; discriminate E]);
      try (split; [intros _; split; [reflexivity | intros _ ? ? E; discriminate E] | reflexivity]).
    destruct casc; cbn.
    + split; [intros _; split; [reflexivity | discriminate] | reflexivity].
    + destruct (N.ltb_spec max (len l')); cbn; split; try discriminate.
      * intros [_ Q]. specialize (Q eq_refl _ _ eq_refl eq_refl). lia.
      * intros _. split; [reflexivity|]. intros _ ? ? E1 E2. injection E2 as <-. lia.
      * reflexivity.
  - destruct e as [| | | |l|], a as [| | | |l'|]; cbn [same_json_type type_of]; try (split; [discriminate | intros [E _]; discriminate E]);
      try (split; [intros _; split; [reflexivity | intros _ ? ? E; discriminate E] | reflexivity]).
    destruct casc; cbn.
    + split; [intros _; split; [reflexivity | discriminate] | reflexivity].
    + destruct (N.ltb_spec (len l') min); cbn.
      * split; [discriminate|]. intros [_ Q]. specialize (Q eq_refl _ _ eq_refl eq_refl). lia.
      * destruct (N.ltb_spec max (len l')); cbn; split; try discriminate.
        -- intros [_ Q]. specialize (Q eq_refl _ _ eq_refl eq_refl). lia.
        -- intros _. split; [reflexivity|]. intros _ ? ? E1 E2. injection E2 as <-. lia.
        -- reflexivity.
Qed.
Example C15_example : forall w,
  json_matches w (JArr [num_of 1]) (JArr [JNull; JNull]) (RMinMaxType 1 2) false = true /\
  json_matches w (JArr [num_of 1]) (JArr []) (RMinMaxType 1 2) false = false /\
  json_matches w (JNum (Float (SpecFloat.S754_zero false))) (num_of 3) RType false = true.
Proof. intro w. repeat split. Qed.
(** In a body the bound is not applied when the expected array is empty. *)
Theorem C15_why_nonempty : forall w a,
  compare_json w path_root (JArr []) (JArr a) (mkCtx false (mkCat CBody [(path_root, rl_new (RMinType 3))])) = [].
Proof. reflexivity. Qed.

(** ** C16: status classes *)
Lemma in_class_iff : forall n st, match_status_code n st = true <-> in_class st n.
Proof.
  intros actual st. destruct st; cbn [match_status_code in_class]; rewrite ?andb_true_iff, ?N.leb_le, ?N.ltb_lt; try lia.
  unfold code_in. rewrite existsb_exists. split.
  - intros [x [I E]]. apply N.eqb_eq in E. subst. exact I.
  - intro I. exists actual. split; [exact I | apply N.eqb_refl].
Qed.
Theorem C16_status_rule_accepts_exactly_its_class : forall w expected actual st m,
  actual < 65536 -> cat_name m = CStatus -> cat_rules m = [(path_empty, rl_new (RStatusCode st))] ->
  (match_status w expected actual m = [] <-> in_class st actual).
Proof.
  intros w expected actual st m B Nm Rs. unfold match_status, matcher_is_defined, select_best_matcher, resolve_matchers_for_path.
  rewrite Nm. unfold cat_is_empty, as_rule_list. rewrite Rs. cbn [negb].
  unfold match_values, rl_new. cbn [rl_is_empty rl_rules rl_logic rl_cascaded forallb filter]. unfold u16_matches, u64_matches.
  rewrite N.mod_small by exact B.
  pose proof (in_class_iff actual st) as E.
  rewrite <- E. destruct (match_status_code actual st); cbn; split; congruence.
Qed.
Theorem C16_without_rules_status_must_be_equal : forall w expected actual,
  match_status w expected actual (cat_empty CStatus) = [] <-> expected = actual.
Proof.
  intros w expected actual. unfold match_status. cbn. destruct (N.eqb_spec expected actual); split; congruence.
Qed.
Example C16_example : forall w,
  match_status w 200 299 (mkCat CStatus [(path_empty, rl_new (RStatusCode HSuccess))]) = [] /\
  match_status w 200 300 (mkCat CStatus [(path_empty, rl_new (RStatusCode HSuccess))]) <> [] /\
  match_status w 200 404 (mkCat CStatus [(path_empty, rl_new (RStatusCode (HStatusCodes [200; 404])))]) = [].
Proof. intro w. repeat split; discriminate. Qed.
(** The same rule applied to a 64 bit number looks at its low 16 bits only,
    and applied to a JSON value it accepts everything. *)
Theorem C16_other_values : forall w st cascaded,
  (forall e n, u64_matches w e n (RStatusCode st) cascaded = true <-> in_class st (n mod 65536)) /\
  (forall e a, json_matches w e a (RStatusCode st) cascaded = true).
Proof.
  intros w st cascaded. split; [|reflexivity]. intros e n. cbn [u64_matches]. apply in_class_iff.
Qed.
Theorem C16_why_status : forall w,
  u64_matches w 200 65736 (RStatusCode HSuccess) false = true /\ ~ in_class HSuccess 65736.
Proof. intro w. repeat split. cbn. lia. Qed.

(** ** C17, C18, C19: bodies without rules *)
Lemma agrees_refl : forall extra j, json_wf j -> agrees extra j j.
Proof.
  intros extra. induction j using json_ind'; intro W.
  - apply ag_scalar; constructor.
  - apply ag_scalar; constructor.
  - apply ag_scalar; constructor. apply (json_eqb_refl (JNum n) W).
  - apply ag_scalar; constructor.
  - apply ag_arr. apply json_wf_arr in W. induction l; constructor; inversion H; inversion W; subst; auto.
  - apply json_wf_obj in W as [_ W]. rewrite Forall_forall in H, W. apply ag_obj.
    + intros k v G. exists v. split; [exact G|]. apply obj_get_in in G. apply (H (k, v) G), (W _ G).
    + auto.
Qed.
Theorem C17_body_matches_itself : forall w c p j, no_rules c -> json_wf j -> compare_json w p j j c = [].
Proof. intros w c p j NR W. apply compare_no_rules; auto using agrees_refl. Qed.
Example ex_doc : json :=
  JObj [(S_ "a", JArr [num_of 1; JNull]); (S_ "b", JObj [(S_ "*", JStr (S_ "x"))]); (S_ "c", JNum (Float (SpecFloat.S754_finite false 5 (-1))))].
Lemma ex_doc_wf : json_wf ex_doc.
Proof. vm_compute. repeat (split || constructor). Qed.
Example C17_example : no_rules (mkCtx true (cat_empty CBody)) /\ json_wf ex_doc.
Proof. split; [reflexivity | apply ex_doc_wf]. Qed.

Theorem C18_request_body_must_be_equal : forall w c p e a, no_rules c -> allow c = false -> json_wf e -> json_wf a ->
  (compare_json w p e a c = [] <-> json_eqb e a = true) /\
  (compare_json w p e a c = [] <-> agrees false e a).
Proof.
  intros w c p e a NR AL We Wa. pose proof (compare_no_rules w c NR e a p We Wa) as E. rewrite AL in E.
  split; [|exact E]. rewrite E. apply agrees_eqb; assumption.
Qed.
Theorem C19_response_body_may_add_entries : forall w c p e a, no_rules c -> allow c = true -> json_wf e -> json_wf a ->
  (compare_json w p e a c = [] <-> agrees true e a).
Proof. intros w c p e a NR AL We Wa. rewrite <- AL. apply compare_no_rules; assumption. Qed.
Example C19_example : forall w p,
  compare_json w p (JObj [(S_ "a", num_of 1)]) (JObj [(S_ "a", num_of 1); (S_ "b", JNull)]) (mkCtx true (cat_empty CBody)) = [] /\
  compare_json w p (JObj [(S_ "a", num_of 1)]) (JObj [(S_ "a", num_of 1); (S_ "b", JNull)]) (mkCtx false (cat_empty CBody)) <> [] /\
  compare_json w p (JArr [num_of 1]) (JArr [num_of 1; num_of 1]) (mkCtx true (cat_empty CBody)) <> [].
Proof. intros w p. repeat split; discriminate. Qed.

(** ** C20: allowing unexpected keys is more lenient, whatever the rules *)
Theorem C20_allowing_keys_is_more_lenient : forall w rules p e a,
  compare_json w p e a (mkCtx false rules) = [] -> compare_json w p e a (mkCtx true rules) = [].
Proof. intros w rules p e a. apply compare_mono. Qed.
Example C20_example : forall w,
  compare_json w path_root (JObj [(S_ "a", JArr [num_of 1])]) (JObj [(S_ "a", JArr [num_of 5; num_of 6])])
    (mkCtx false (mkCat CBody [(from_tokens [TRoot; TField (S_ "a")], rl_new RType)])) = [].
Proof. reflexivity. Qed.

(** ** C34: deep merge *)
Theorem C34_deep_merge_is_the_merge : forall a b, json_wf a -> json_wf b ->
  merged a b (json_deep_merge a b) /\ json_wf (json_deep_merge a b).
Proof. intros a b Wa Wb. split; [apply deep_merge_merged | apply deep_merge_wf]; assumption. Qed.
Theorem C34_empty_object_is_neutral : forall m, json_wf (JObj m) ->
  json_deep_merge (JObj m) (JObj []) = JObj m /\ json_deep_merge (JObj []) (JObj m) = JObj m.
Proof. intros m W. split; [apply deep_merge_empty_r | apply deep_merge_empty_l, W]. Qed.
(** Merging a document with itself changes nothing exactly when it has no elements in arrays. *)
Theorem C34_idempotent_exactly_without_elements : forall a, json_wf a -> (json_deep_merge a a = a <-> array_free a).
Proof. exact deep_merge_idem_iff. Qed.
Theorem C34_why_without_elements : json_wf (JObj [(S_ "a", JArr [JNull])]) /\
  json_deep_merge (JObj [(S_ "a", JArr [JNull])]) (JObj [(S_ "a", JArr [JNull])]) <> JObj [(S_ "a", JArr [JNull])].
Proof. split; [apply json_wf_obj; repeat constructor | discriminate]. Qed.
Example C34_example : json_wf ex_doc /\ array_free (JObj [(S_ "a", JNull)]) /\
  json_deep_merge (JObj [(S_ "a", num_of 1); (S_ "b", num_of 2)]) (JObj [(S_ "b", num_of 3); (S_ "c", JNull)])
  = JObj [(S_ "a", num_of 1); (S_ "b", num_of 3); (S_ "c", JNull)].
Proof.
  split; [apply ex_doc_wf|]. split; [|reflexivity]. apply af_obj. intros k v [E|[]]. injection E as <- <-. apply af_scalar; exact I.
Qed.

(** ** C36: array contains *)
(** The variants of the rule; without any, each expected element by equality. *)
Definition variants_of (e : list json) (vs : list (N * category)) : list (N * category) :=
  match vs with [] => map (fun i => (N.of_nat i, cat_equality CBody)) (seq 0 (length e)) | _ => vs end.
Theorem C36_array_contains_each_variant_single_entry : forall w c q vs lg cs p e a,
  only_rule c q (mkRules [RArrayContains vs] lg cs) -> (length (path_tokens q) <= 58)%nat ->
  accepts (path_tokens q) (to_vec p) -> e <> [] ->
  (compare_json w p (JArr e) (JArr a) c = [] <->
   forall i rules, In (i, rules) (variants_of e vs) ->
     exists x y, nth_error e (N.to_nat i) = Some x /\ In y a /\
                 compare_json w path_root x y (mkCtx (allow c) rules) = []).
Proof.
  intros w c q vs lg cs p e a O S A NE.
  assert (mkRules [RArrayContains vs] lg cs <> mkRules [] lg cs) as _ by discriminate.
  pose proof (C14_body_array_single_entry w c q _ p e a O S A ltac:(discriminate)) as E. cbv zeta in E.
  rewrite E. clear E. cbn [rl_logic rl_rules].
  assert (forall casc, compare_lists_with_matchingrule json json_eqb clone_with (compare_json w) (RArrayContains vs) p e a c casc = [] <->
    forall i rules, In (i, rules) (variants_of e vs) ->
     exists x y, nth_error e (N.to_nat i) = Some x /\ In y a /\
                 compare_json w path_root x y (mkCtx (allow c) rules) = []) as V.
  { intro casc. unfold compare_lists_with_matchingrule. destruct e as [|f e']; [congruence|].
    rewrite flat_map_nil. split.
    - intros H i rules I. specialize (H (i, rules) I). apply variant_nil in H. exact H.
    - intros H [i rules] I. apply variant_nil. cbn [fst snd]. apply H, I. }
  destruct lg.
  - rewrite <- V. split; [intro H; apply H; left; reflexivity | intros H r [<-|[]]; exact H].
  - rewrite <- V. split; [intros [r [[<-|[]] H]]; exact H | intro H; eexists; split; [left; reflexivity | exact H]].
Qed.
Theorem C36_order_of_the_actual_array_is_irrelevant_single_entry : forall w c q vs lg cs p e a a',
  only_rule c q (mkRules [RArrayContains vs] lg cs) -> (length (path_tokens q) <= 58)%nat ->
  accepts (path_tokens q) (to_vec p) -> Permutation a a' ->
  (compare_json w p (JArr e) (JArr a) c = [] <-> compare_json w p (JArr e) (JArr a') c = []).
Proof.
  intros w c q vs lg cs p e a a' O S A P.
  destruct e as [|f e].
  - assert (forall l, compare_json w p (JArr []) (JArr l) c = []) as Z; [|rewrite !Z; reflexivity].
    intro l. pose proof (C14_body_array_single_entry w c q _ p [] l O S A ltac:(discriminate)) as E. cbv zeta in E.
    apply E. cbn. destruct lg; [intros r _; reflexivity|]. eexists. split; [left; reflexivity | reflexivity].
  - rewrite !(C36_array_contains_each_variant_single_entry w c q vs lg cs p) by (assumption || discriminate).
    split; intros H i rules I; destruct (H i rules I) as (x & y & Ex & Iy & C); exists x, y; repeat split; try assumption.
    + eapply Permutation_in; eassumption.
    + eapply Permutation_in; [apply Permutation_sym|]; eassumption.
Qed.
(** Without variants: every expected element equals some actual one (an
    expected empty array is satisfied by any array). *)
Theorem C36_without_variants_single_entry : forall w c q lg cs p e a,
  only_rule c q (mkRules [RArrayContains []] lg cs) -> (length (path_tokens q) <= 58)%nat ->
  accepts (path_tokens q) (to_vec p) -> json_wf (JArr e) -> json_wf (JArr a) -> e <> [] ->
  (compare_json w p (JArr e) (JArr a) c = [] <->
   forall x, In x e -> exists y, In y a /\ (json_eqb x y = true \/ (x = JArr [] /\ type_of y = TyArray))).
Proof.
  intros w c q lg cs p e a O S A We Wa NE. rewrite (C36_array_contains_each_variant_single_entry w c q [] lg cs p) by assumption.
  apply json_wf_arr in We, Wa. rewrite Forall_forall in We, Wa. cbn [variants_of].
  split; intro H.
  - intros x I. apply In_nth_error in I as [n En].
    assert (n < length e)%nat as L by (apply nth_error_Some; congruence).
    destruct (H (N.of_nat n) (cat_equality CBody)) as (x' & y & Ex & Iy & C).
    { apply in_map_iff. exists n. split; [reflexivity|]. apply in_seq. lia. }
    rewrite Nat2N.id, En in Ex. injection Ex as <-. exists y. split; [exact Iy|].
    apply eq_ctx in C; [tauto | reflexivity | eapply We, nth_error_In, En | apply Wa, Iy].
  - intros i rules I. apply in_map_iff in I as [n [E I]]. injection E as <- <-. apply in_seq in I.
    rewrite Nat2N.id. destruct (nth_error e n) as [x|] eqn:En; [|apply nth_error_None in En; lia].
    destruct (H x (nth_error_In _ _ En)) as [y [Iy D]]. exists x, y. repeat split; [exact Iy|].
    apply eq_ctx; [reflexivity | eapply We, nth_error_In, En | apply Wa, Iy | tauto].
Qed.
Example C36_example : forall w,
  let c := mkCtx false (mkCat CBody [(path_root, rl_new (RArrayContains [(0, mkCat CBody [(path_root, rl_new RInteger)])]))]) in
  only_rule c path_root (mkRules [RArrayContains [(0, mkCat CBody [(path_root, rl_new RInteger)])]] And false) /\
  compare_json w path_root (JArr [num_of 1]) (JArr [JNull; num_of 7]) c = [] /\
  compare_json w path_root (JArr [num_of 1]) (JArr [JNull; JStr []]) c <> [].
Proof. intros w c. repeat split. discriminate. Qed.

(** ** C38: a type rule governs the whole sub-document *)
Theorem C38_type_rule_governs_the_sub_document_single_entry : forall w c q r lg cs p e a,
  type_rule r -> only_rule c q (mkRules [r] lg cs) -> (length (path_tokens q) <= 58)%nat ->
  accepts (path_tokens q) (to_vec p) -> json_wf e -> json_wf a ->
  (compare_json w p e a c = [] <->
   shape (allow c) e a /\
   (length (path_tokens p) = length (path_tokens q) -> size_respected r e a)).
Proof. intros. apply (compare_type_rule w c q r lg cs); assumption. Qed.
Theorem C38_type_rule_at_the_root : forall w al lg e a, json_wf e -> json_wf a ->
  (compare_json w path_root e a (mkCtx al (mkCat CBody [(path_root, mkRules [RType] lg false)])) = [] <-> shape al e a).
Proof.
  intros w al lg e a We Wa.
  rewrite (C38_type_rule_governs_the_sub_document_single_entry w _ path_root RType lg false); try assumption; try exact I.
  - cbn [allow]. split; [intros [S _]; exact S|]. intro S. split; [exact S|]. intros _.
    unfold size_respected. destruct e as [| | | |[|]|], a; exact I.
  - split; reflexivity.
  - cbn. lia.
  - repeat constructor.
Qed.
Example C38_example : forall w,
  compare_json w path_root ex_doc
    (JObj [(S_ "a", JArr [num_of 9; JNull; num_of 3; num_of 4]); (S_ "b", JObj [(S_ "*", JStr [])]); (S_ "c", num_of 0)])
    (mkCtx false (mkCat CBody [(path_root, rl_new RType)])) = [].
Proof. reflexivity. Qed.

(** ** C39: iteration order of the rule map *)
Theorem C39_no_ties : forall w c c' p e a,
  reordered c c' -> cat_name (matchers c) = CBody -> short_paths (matchers c) ->
  (* at no location two rule paths are equally specific *)
  (forall loc x y, In x (cat_rules (matchers c)) -> In y (cat_rules (matchers c)) ->
     matching_path (to_vec loc) (fst x) -> matching_path (to_vec loc) (fst y) ->
     specificity (fst x) = specificity (fst y) -> x = y) ->
  (* rule paths written for the same location all have an entry rule, or none has *)
  (forall loc x y, In x (cat_rules (matchers c)) -> In y (cat_rules (matchers c)) ->
     written_for loc (fst x) -> written_for loc (fst y) ->
     existsb entry_rule (rl_rules (snd x)) = existsb entry_rule (rl_rules (snd y))) ->
  compare_json w p e a c' = compare_json w p e a c.
Proof.
  intros w c c' p e a (AL & Nm & P) B S U X. symmetry. apply fuel_equiv. split; [symmetry; exact AL|]. intro loc.
  assert (by_specificity (matchers c)) as BS by (left; exact B).
  assert (forall q, In q (map fst (cat_rules (matchers c))) -> (length (path_tokens q) <= 58)%nat) as SQ.
  { intros q I. unfold short_paths in S. rewrite Forall_forall in S. apply in_map_iff in I as [x [<- I]]. apply S, I. }
  assert (forall q, In q (map fst (cat_rules (matchers c))) ->
     matches_path_exactly q (to_vec loc) = true -> written_for loc q) as WF.
  { intros q I M. unfold matches_path_exactly in M. apply andb_true_iff in M as [M1 M2]. apply N.eqb_eq in M1.
    rewrite vec_len in M1. split; [apply weight_pos_iff; [apply SQ, I | exact M2] | lia]. }
  repeat split.
  - unfold ctx_matcher_is_defined, matcher_is_defined, resolve_matchers_for_path. rewrite Nm, B.
    unfold cat_is_empty, cat_filter. cbn [cat_rules].
    pose proof (filter_perm _ (fun pr => matches_path (fst pr) (to_vec loc)) _ _ P) as F.
    destruct (filter _ (cat_rules (matchers c))); [apply Permutation_nil in F; rewrite F; reflexivity|].
    destruct (filter _ (cat_rules (matchers c'))); [apply Permutation_sym, Permutation_nil in F; discriminate | reflexivity].
  - unfold ctx_select_best. symmetry. apply C09_no_ties; try assumption.
    intros x y Ix Iy Mx My. eapply U; eassumption.
  - unfold direct_entry_matcher, matchers_for_exact_path. rewrite Nm, B. unfold as_rule_list, cat_filter. cbn [cat_rules].
    pose proof (filter_perm _ (fun pr => matches_path_exactly (fst pr) (to_vec loc)) _ _ P) as F.
    destruct (filter _ (cat_rules (matchers c))) as [|[q rl] l] eqn:E1;
    destruct (filter _ (cat_rules (matchers c'))) as [|[q' rl'] l'] eqn:E2.
    + reflexivity.
    + apply Permutation_nil in F. discriminate.
    + apply Permutation_sym, Permutation_nil in F. discriminate.
    + assert (In (q, rl) (filter (fun pr => matches_path_exactly (fst pr) (to_vec loc)) (cat_rules (matchers c)))) as I1 by (rewrite E1; left; reflexivity).
      assert (In (q', rl') (filter (fun pr => matches_path_exactly (fst pr) (to_vec loc)) (cat_rules (matchers c)))) as I2.
      { rewrite E1. eapply Permutation_in; [apply Permutation_sym, F | left; reflexivity]. }
      apply filter_In in I1 as [I1 M1]. apply filter_In in I2 as [I2 M2]. cbn [fst] in *.
      apply (X loc (q, rl) (q', rl')); try assumption; apply WF; try assumption; apply (in_map fst) in I1, I2; assumption.
  - unfold direct_any_matcher, matchers_for_exact_path. rewrite Nm, B. unfold cat_is_empty, cat_filter. cbn [cat_rules].
    pose proof (filter_perm _ (fun pr => matches_path_exactly (fst pr) (to_vec loc)) _ _ P) as F.
    destruct (filter _ (cat_rules (matchers c))); [apply Permutation_nil in F; rewrite F; reflexivity|].
    destruct (filter _ (cat_rules (matchers c'))); [apply Permutation_sym, Permutation_nil in F; discriminate | reflexivity].
Qed.
(** The key check looks at an arbitrary one of the rule lists written for the
    location, so with a wildcard rule next to an exact one the verdict varies. *)
Theorem C39_why_agree : forall w,
  let r1 := (from_tokens [TRoot; TField (S_ "a")], rl_new RType) in
  let r2 := (from_tokens [TRoot; TStar], rl_new RValues) in
  let c := mkCtx true (mkCat CBody [r1; r2]) in
  let c' := mkCtx true (mkCat CBody [r2; r1]) in
  let e := JObj [(S_ "a", JObj [(S_ "x", num_of 1); (S_ "y", num_of 1)])] in
  let a := JObj [(S_ "a", JObj [(S_ "x", num_of 2)])] in
  reordered c c' /\ compare_json w path_root e a c <> [] /\ compare_json w path_root e a c' = [].
Proof.
  intros w r1 r2 c c' e a. split; [repeat split; apply perm_swap|]. split; [vm_compute; discriminate | reflexivity].
Qed.
Example C39_example : forall w,
  let c := mkCtx true (mkCat CBody [(path_root, rl_new RType); (from_tokens [TRoot; TField (S_ "a")], rl_new RInteger)]) in
  let c' := mkCtx true (mkCat CBody [(from_tokens [TRoot; TField (S_ "a")], rl_new RInteger); (path_root, rl_new RType)]) in
  reordered c c' /\ compare_json w path_root (JObj [(S_ "a", num_of 1)]) (JObj [(S_ "a", JNull)]) c' <> [].
Proof. intros w c c'. split; [repeat split; apply perm_swap | discriminate]. Qed.
