(** Property C47: rules on headers, query parameters, paths and metadata. *)
From Coq Require Import Ascii String List Arith NArith ZArith Lia Bool Sorted Permutation.
From Verif Require Import Base PathExp SpecPath PathExpProofs PropPath Json Text TextProofs MatchingRules Matchers JsonCompare SpecRules
  Headers SpecQuery QueryProofs SpecHeaders HeaderProofs HeaderProofs2 PropHeaders SpecMatch CompareProofs CompareProofs2 PropMatch
  Query ContentType Http SpecHttp PropHttp.
Import ListNotations.
Open Scope N_scope.
Local Opaque show_N.

(** What a rule asks of a list of values as a whole. *)
Definition whole_list_ok (r : rule) (e a : list str) : Prop :=
  match r with
  | RMinType _ | RMaxType _ | RMinMaxType _ _ => size_allowed r (len a)
  | REquality => e = a
  | RNotEmpty => a <> []
  | RNull | RStatusCode _ => False
  | _ => True
  end.
(** Rules that look at each value by itself. *)
Definition value_rule (r : rule) : Prop := match r with RArrayContains _ | REachValue _ => False | _ => True end.
(** A list of values governed by a rule list; [ok] is one value against the rules. *)
Definition governed (rl : rulelist) (ok : str -> str -> Prop) (e a : list str) : Prop :=
  combined (rl_logic rl) (rl_rules rl) (fun r => whole_list_ok r e a /\
    forall i x y, nth_or_first e i = Some x -> nth_error a i = Some y -> ok x y).

Lemma list_matches_str : forall e a r, list_matches str_eqb e a r false = true <-> whole_list_ok r e a.
Proof.
  intros e a r. destruct r; cbn [list_matches whole_list_ok size_allowed]; try (split; trivial; fail);
    try (split; [discriminate | tauto]).
  - revert a. induction e as [|x e IH]; destruct a as [|y a]; cbn [list_eqb]; try (split; congruence).
    rewrite andb_true_iff, IH, str_eqb_eq. split; [intros [-> ->]; reflexivity | intro E; injection E; auto].
  - cbn [negb andb]. rewrite negb_true_iff, N.ltb_ge. reflexivity.
  - cbn [negb andb]. rewrite negb_true_iff, N.ltb_ge. reflexivity.
  - cbn [negb andb]. destruct (N.ltb_spec (len a) min) as [L|L]; [split; [discriminate | lia]|].
    rewrite negb_true_iff, N.ltb_ge. lia.
  - destruct a; split; try discriminate; try congruence. reflexivity.
Qed.

(** The generic comparison when every element's path is governed. *)
Section Lists.
Variable clone : context -> category -> context.
Variable cb : docpath -> str -> str -> context -> list mismatch.
Variable c : context.
Variable p : docpath.
Variable ok : str -> str -> Prop.
Hypothesis CB : forall i x y, cb (join p (show_N i)) x y c = [] <-> ok x y.
Hypothesis DEF : forall i, ctx_matcher_is_defined c (join p (show_N i)) = true.
Lemma governed_elements : forall e i a, (length a <= length e)%nat ->
  (match_elements str cb p c i e a = [] <-> forall j x y, nth_error e j = Some x -> nth_error a j = Some y -> ok x y).
Proof.
  induction e as [|x e IH]; intros i a L.
  - destruct a; [|cbn in L; lia]. split; [intros _ [|j] ? ? E; discriminate | reflexivity].
  - cbn [match_elements]. destruct a as [|y a].
    + rewrite DEF. cbn [app]. rewrite IH by (cbn; lia). split; intros H [|j] x' y' E1 E2; try discriminate; destruct j; discriminate.
    + cbn [length] in L. split.
      * intro H. apply app_eq_nil in H as [H1 H2]. rewrite IH in H2 by lia. apply CB in H1.
        intros [|j] x' y' E1 E2; cbn in E1, E2; [congruence | eapply H2; eassumption].
      * intro H. rewrite (proj2 (CB i x y) (H O x y eq_refl eq_refl)). apply IH; [lia|]. intros j. exact (H (S j)).
Qed.
Lemma pad_len : forall (e : list str) n, e <> [] -> (n <= length (pad_expected str e n))%nat.
Proof. intros [|v e] n NE; [congruence|]. unfold pad_expected. rewrite app_length, repeat_length. cbn [length]. lia. Qed.
Lemma governed_contents : forall e a, e <> [] ->
  (match_list_contents str cb p e a c = [] <-> forall i x y, nth_or_first e i = Some x -> nth_error a i = Some y -> ok x y).
Proof.
  intros e a NE. unfold match_list_contents. rewrite governed_elements by (apply pad_len, NE).
  destruct e as [|v e]; [congruence|].
  assert (forall i y, nth_error a i = Some y -> nth_error (pad_expected str (v :: e) (length a)) i = nth_or_first (v :: e) i) as PN.
  { intros i y E. assert (i < length a)%nat by (apply nth_error_Some; congruence).
    unfold pad_expected, nth_or_first. destruct (nth_error (v :: e) i) as [z|] eqn:Z.
    - rewrite nth_error_app1; [exact Z | apply nth_error_Some; congruence].
    - apply nth_error_None in Z. rewrite nth_error_app2 by exact Z. apply nth_error_repeat. lia. }
  split; intros H i x y E1 E2; (eapply H; [|eassumption]).
  - rewrite (PN i y E2). exact E1.
  - rewrite <- (PN i y E2). exact E1.
Qed.
Lemma governed_lists : forall rl e a, e <> [] -> rl_rules rl <> [] -> rl_cascaded rl = false -> Forall value_rule (rl_rules rl) ->
  (compare_lists_with_matchingrules str str_eqb clone cb p rl e a c = [] <-> governed rl ok e a).
Proof.
  intros rl e a NE NR NC VR. unfold compare_lists_with_matchingrules, governed.
  assert (rl_is_empty rl = false) as -> by (unfold rl_is_empty; destruct (rl_rules rl); [congruence | reflexivity]).
  rewrite NC. rewrite Forall_forall in VR.
  assert (forall r, In r (rl_rules rl) ->
    (compare_lists_with_matchingrule str str_eqb clone cb r p e a c false = [] <->
     whole_list_ok r e a /\ forall i x y, nth_or_first e i = Some x -> nth_error a i = Some y -> ok x y)) as ONE.
  { intros r I. apply VR in I. rewrite <- list_matches_str, <- (governed_contents e a NE).
    destruct e as [|v e]; [congruence|]. cbn [compare_lists_with_matchingrule].
    destruct r; try (destruct I); destruct (list_matches _ _ _ _ _); cbn [app];
      try (split; [intro H; split; [reflexivity | exact H] | intros [_ H]; exact H]); (split; [discriminate | intros [H _]; discriminate]). }
  unfold combined. destruct (rl_logic rl).
  - rewrite concat_nil_Forall, Forall_map, Forall_forall. split; intros H r I; apply ONE; auto.
  - destruct (forallb nonempty _) eqn:F.
    + split.
      * intro H. exfalso. destruct (rl_rules rl) as [|r rs]; [congruence|]. cbn [map concat forallb] in *.
        apply app_eq_nil in H as [H _]. rewrite H in F. discriminate.
      * intros [r [I H]]. exfalso. apply ONE in H; [|exact I]. rewrite forallb_forall in F.
        specialize (F _ (in_map _ _ _ I)). cbv beta in F. rewrite H in F. discriminate.
    + split; [|reflexivity]. intros _.
      assert (exists l, In l (map (fun r => compare_lists_with_matchingrule str str_eqb clone cb r p e a c false) (rl_rules rl)) /\ l = []) as [l [I E]].
      { clear -F. induction (map _ (rl_rules rl)) as [|l ls IH]; [discriminate|]. cbn [forallb] in F.
        destruct l as [|m l]; [exists []; split; [left|]; reflexivity|]. destruct (IH F) as [l' [I E]]. exists l'. split; [right; exact I | exact E]. }
      apply in_map_iff in I as [r [E' I]]. exists r. split; [exact I|]. apply ONE; [exact I|]. congruence.
Qed.
End Lists.

(** A context with one rule list at [$.name], in the query or header category. *)
Section OneName.
Variable nm : category_name.
Hypothesis NM : nm = CQuery \/ nm = CHeader.
Variable q : docpath.
Variable rl : rulelist.
Variable allow_ : bool.
Variable k : str.
Hypothesis Q : path_tokens q = [TRoot; TField k].
Let c := mkCtx allow_ (mkCat nm [(q, rl)]).
Lemma one_matches : forall p rest, to_vec p = S_ "$" :: k :: rest -> matches_path q (to_vec p) = true.
Proof.
  intros p rest E. rewrite E. unfold matches_path, path_weight. rewrite Q. cbn [length].
  assert (N.of_nat 2 <=? N.of_nat (S (S (length rest))) = true) as -> by (apply N.leb_le; lia).
  cbn [fst weight_fold matches_token]. rewrite !str_eqb_refl. reflexivity.
Qed.
Lemma one_defined : forall p rest, to_vec p = S_ "$" :: k :: rest -> ctx_matcher_is_defined c p = true.
Proof.
  intros p rest E. unfold ctx_matcher_is_defined, matcher_is_defined, resolve_matchers_for_path, cat_filter, cat_is_empty, c.
  cbn [matchers cat_name cat_rules]. destruct NM as [-> | ->]; cbn [filter fst]; rewrite (one_matches p rest E); reflexivity.
Qed.
Lemma one_best : forall p rest, to_vec p = S_ "$" :: k :: rest -> ctx_select_best c p = rl.
Proof.
  intros p rest E. unfold ctx_select_best, select_best_matcher, resolve_matchers_for_path, cat_filter, as_rule_list, c.
  cbn [matchers cat_name cat_rules]. destruct NM as [-> | ->]; cbn [filter fst]; rewrite (one_matches p rest E); reflexivity.
Qed.
End OneName.

(** The names whose path step shows the name itself: all but numbers that are not
    written in the canonical form (such as "01" or "+1"). *)
Definition plain_name (k : str) : Prop := forall n, parse_usize k = Some n -> k = show_N n.
Lemma plain_display : forall k, plain_name k -> token_display (part_token k) = k.
Proof.
  intros k P. unfold part_token. destruct (str_eqb_spec k (S_ "*")) as [->|N1]; [reflexivity|].
  destruct (str_eqb_spec k (S_ "[*]")) as [->|N2]; [reflexivity|].
  destruct (parse_usize k) as [n|] eqn:E; [|reflexivity]. symmetry. apply P, E.
Qed.
Lemma vec_name : forall k, plain_name k -> to_vec (join path_root k) = [S_ "$"; k].
Proof. intros k P. rewrite to_vec_join, plain_display by exact P. reflexivity. Qed.

Lemma values_combined : forall (sat : rule -> bool -> bool) rl, rl_rules rl <> [] ->
  (match_values sat rl = [] <-> combined (rl_logic rl) (rl_rules rl) (fun r => sat r (rl_cascaded rl) = true)).
Proof.
  intros sat rl NE. unfold combined. destruct (rl_logic rl) eqn:L.
  - apply C14_and_needs_every_rule; assumption.
  - apply C14_or_needs_one_rule; assumption.
Qed.

(** ** Query parameters *)
(** A rule list written for a query parameter decides the comparison of its values. *)
Theorem C47_query_parameter : forall w k rl e a allow_,
  plain_name k -> rl_rules rl <> [] -> rl_cascaded rl = false -> Forall value_rule (rl_rules rl) -> e <> [] ->
  let c := mkCtx allow_ (mkCat CQuery [(push_field path_root k, rl)]) in
  (matched (match_query w (Some [(k, e)]) (Some [(k, a)]) c) <->
   governed rl (fun x y => combined (rl_logic rl) (rl_rules rl) (fun r => str_matches w x y r false = true))
     (map text_value e) (map text_value a)).
Proof.
  intros w k rl e a allow_ P NE NC VR NN c. cbn [match_query]. unfold match_query_maps, unexpected_entries.
  cbn [map flat_map fst snd obj_get]. rewrite str_eqb_refl. cbn [app]. rewrite matched_cons.
  assert (matched (@nil (str * list mismatch))) as MN by (intros ? ? []).
  unfold match_query_entry. cbn [obj_get]. rewrite str_eqb_refl. unfold match_query_values.
  assert (forall p rest, to_vec p = S_ "$" :: k :: rest -> ctx_matcher_is_defined c p = true) as D
    by (apply (one_defined CQuery (or_introl eq_refl)); reflexivity).
  assert (forall p rest, to_vec p = S_ "$" :: k :: rest -> ctx_select_best c p = rl) as B
    by (apply (one_best CQuery (or_introl eq_refl)); reflexivity).
  pose proof (vec_name k P) as V. rewrite (D _ [] V), (B _ [] V).
  rewrite (governed_lists _ _ _ _ (fun x y => combined (rl_logic rl) (rl_rules rl) (fun r => str_matches w x y r false = true))).
  - split; [intros [H _]; exact H | intro H; split; assumption].
  - intros i x y. unfold compare_query_parameter_value.
    assert (to_vec (join (join (join path_root k) (show_N i)) (show_N 0)) =
      S_ "$" :: k :: [token_display (part_token (show_N i)); token_display (part_token (show_N 0))]) as V'
      by (rewrite !to_vec_join, plain_display by exact P; reflexivity).
    change (clone_with c (matchers c)) with c.
    rewrite (D _ _ V'), (B _ _ V'). rewrite <- NC, <- (values_combined (str_matches w x y) rl NE).
    split; [apply map_eq_nil | intros ->; reflexivity].
  - intro i. change (clone_with c (matchers c)) with c. apply (D _ [token_display (part_token (show_N i))]).
    rewrite to_vec_join, V. reflexivity.
  - intro E. apply map_eq_nil in E. apply NN. exact E.
  - exact NE.
  - exact NC.
  - exact VR.
Qed.
(** ... except for a parameter expected without any value, which accepts anything. *)
Theorem C47_no_expected_value : forall w k rl a allow_, plain_name k -> rl_rules rl <> [] ->
  let c := mkCtx allow_ (mkCat CQuery [(push_field path_root k, rl)]) in
  matched (match_query w (Some [(k, [])]) (Some [(k, a)]) c).
Proof.
  intros w k rl a allow_ P NE c. cbn [match_query]. unfold match_query_maps, unexpected_entries.
  cbn [map flat_map fst snd obj_get]. rewrite str_eqb_refl. cbn [app]. rewrite matched_cons. split; [|intros ? ? []].
  unfold match_query_entry. cbn [obj_get]. rewrite str_eqb_refl. unfold match_query_values.
  unfold c. rewrite (one_defined CQuery (or_introl eq_refl) (push_field path_root k) rl allow_ k eq_refl _ [] (vec_name k P)),
    (one_best CQuery (or_introl eq_refl) (push_field path_root k) rl allow_ k eq_refl _ [] (vec_name k P)).
  unfold compare_lists_with_matchingrules. unfold rl_is_empty. destruct (rl_rules rl) as [|r rs] eqn:R; [congruence|].
  cbn [plain_values map]. cbn [compare_lists_with_matchingrule]. destruct (rl_logic rl).
  - apply concat_nil_Forall. constructor; [reflexivity|]. apply Forall_forall. intros l I. apply in_map_iff in I as [r' [<- _]]. reflexivity.
  - reflexivity.
Qed.
(** ... and for a parameter whose name is a number not written canonically: the rule is not found. *)
Theorem C47_why_plain_name : forall w,
  let rl := rl_new RType in
  let c k := mkCtx false (mkCat CQuery [(push_field path_root k, rl)]) in
  matched (match_query w (Some [(S_ "1", [Some (S_ "a")])]) (Some [(S_ "1", [Some (S_ "b")])]) (c (S_ "1"))) /\
  ~ matched (match_query w (Some [(S_ "01", [Some (S_ "a")])]) (Some [(S_ "01", [Some (S_ "b")])]) (c (S_ "01"))).
Proof.
  intro w. cbv zeta. split.
  - intros k l I. vm_compute in I. destruct I as [I|[]]. injection I as <- <-. reflexivity.
  - intro H. specialize (H (S_ "01") [mkMM [] KNotEqual]).
    vm_compute in H. discriminate H. left. reflexivity.
Qed.

(** ** Headers *)
Lemma header_one : forall w name rl,
  header_context w (header_rule name rl) =
  mkCtx false (mkCat CHeader [(to_lower_case (to_lower w) (push_field path_root name), rl)]).
Proof. reflexivity. Qed.
Theorem C47_header : forall w name rl k e a A,
  to_lower w name = to_lower w k -> to_lower w (to_lower w k) = to_lower w k -> plain_name (to_lower w k) ->
  rl_rules rl <> [] -> rl_cascaded rl = false -> Forall value_rule (rl_rules rl) -> e <> [] ->
  unique_names (to_lower w) A -> has_header (to_lower w) A k a ->
  let ok x y := combined (rl_logic rl) (rl_rules rl) (fun r => str_matches w (trim w x) (trim w y) r false = true) in
  (matched (match_headers w (Some [(k, e)]) (Some A) (header_context w (header_rule name rl))) <->
   match e, a with
   | [x], [y] => ok x y
   | _, _ => governed rl ok e a
   end).
Proof.
  intros w name rl k e a A LN I P NE NC VR NN U HH ok. cbn [match_headers]. unfold match_header_maps. cbn [map fst snd].
  rewrite matched_cons. assert (matched (@nil (str * list mismatch))) as MN by (intros ? ? []).
  unfold match_header_entry. rewrite (find_header_has w A k a U HH). destruct e as [|x0 e]; [congruence|].
  change (negb (nonempty (x0 :: e)) && nonempty a) with false. cbv iota. rewrite header_one.
  set (q := to_lower_case (to_lower w) (push_field path_root name)).
  set (c := mkCtx false (mkCat CHeader [(q, rl)])).
  assert (path_tokens q = [TRoot; TField (to_lower w k)]) as Q by (unfold q; cbn; rewrite LN; reflexivity).
  pose proof (one_defined CHeader (or_intror eq_refl) q rl false (to_lower w k) Q) as D.
  pose proof (one_best CHeader (or_intror eq_refl) q rl false (to_lower w k) Q) as B. fold c in D, B.
  pose proof (vec_name _ P) as V.
  assert (forall (c' : context) i x y, (forall p rest, to_vec p = S_ "$" :: to_lower w k :: rest -> ctx_matcher_is_defined c' p = true) ->
    (forall p rest, to_vec p = S_ "$" :: to_lower w k :: rest -> ctx_select_best c' p = rl) ->
    match_header_value w k i x y c' = [] <-> ok x y) as VAL.
  { intros c' i x y D' B'. unfold match_header_value, header_value_kinds. rewrite (D' _ [] V), (B' _ [] V). unfold ok.
    rewrite <- NC, <- (values_combined (str_matches w (trim w x) (trim w y)) rl NE).
    split; [apply map_eq_nil | intros ->; reflexivity]. }
  assert (forall av, (compare_lists_with_matchingrules str str_eqb (header_clone w)
             (fun _ e a c => match_header_value w k 0 e a c) (join path_root (to_lower w k)) rl (x0 :: e) av (header_clone w c (matchers c)) = []
           <-> governed rl ok (x0 :: e) av)) as LST.
  { intro av. assert (path_tokens (to_lower_case (to_lower w) q) = [TRoot; TField (to_lower w (to_lower w k))]) as Q2.
    { unfold to_lower_case at 1. rewrite Q. reflexivity. }
    assert (header_clone w c (matchers c) = mkCtx false (mkCat CHeader [(to_lower_case (to_lower w) q, rl)])) as HC by reflexivity.
    rewrite HC. set (c2 := mkCtx false (mkCat CHeader [(to_lower_case (to_lower w) q, rl)])).
    rewrite I in Q2.
    pose proof (one_defined CHeader (or_intror eq_refl) _ rl false (to_lower w k) Q2) as D2.
    pose proof (one_best CHeader (or_intror eq_refl) _ rl false (to_lower w k) Q2) as B2. fold c2 in D2, B2.
    apply governed_lists.
    - intros i x y. apply VAL; assumption.
    - intro i. apply (D2 _ [token_display (part_token (show_N i))]). rewrite to_vec_join, V. reflexivity.
    - discriminate.
    - exact NE.
    - exact NC.
    - exact VR. }
  rewrite (D _ [] V), (B _ [] V).
  destruct e as [|x1 e]; destruct a as [|y a]; [| destruct a as [|y1 a] | |];
    try (split; [intros [H _]; apply LST, H | intro H; split; [apply LST, H | exact MN]]).
  split; [intros [H _]; exact (proj1 (VAL c 0 x0 y D B) H) | intro H; split; [exact (proj2 (VAL c 0 x0 y D B) H) | exact MN]].
Qed.

(** ** Request paths *)
(** The rules of the path category decide the comparison of the path; without rules the
    paths have to be equal. *)
Theorem C47_path : forall w e a c,
  (cat_rules (matchers c) = [] -> (match_path w e a c = [] <-> e = a)) /\
  (forall q rl, cat_name (matchers c) = CPath -> cat_rules (matchers c) = [(q, rl)] -> rl_rules rl <> [] ->
   (match_path w e a c = [] <-> combined (rl_logic rl) (rl_rules rl) (fun r => str_matches w e a r (rl_cascaded rl) = true))).
Proof.
  intros w e a c. unfold match_path. split.
  - intro NR. rewrite no_rules_defined by exact NR. cbn [str_matches]. destruct (str_eqb_spec e a); split; intro H; try reflexivity; try discriminate; congruence.
  - intros q rl NM R NE.
    assert (ctx_matcher_is_defined c path_empty = true) as ->.
    { unfold ctx_matcher_is_defined, matcher_is_defined, resolve_matchers_for_path, cat_is_empty. rewrite NM, R. reflexivity. }
    assert (ctx_select_best c path_empty = rl) as ->.
    { unfold ctx_select_best, select_best_matcher, resolve_matchers_for_path, as_rule_list. rewrite NM, R. reflexivity. }
    apply values_combined, NE.
Qed.

(** ** Cases that meet the hypotheses *)
Example C47_example : forall w,
  let rl := mkRules [RMinType 1; RInclude (S_ "b")] And false in
  let c := mkCtx false (mkCat CQuery [(push_field path_root (S_ "ids"), rl)]) in
  let A := [(S_ "x-ids", [S_ "ab"; S_ "b "])] in
  plain_name (S_ "ids") /\ plain_name (to_lower w (S_ "X-Ids")) /\ Forall value_rule (rl_rules rl) /\
  matched (match_query w (Some [(S_ "ids", [Some (S_ "xb")])]) (Some [(S_ "ids", [Some (S_ "b"); Some (S_ "cb")])]) c) /\
  ~ matched (match_query w (Some [(S_ "ids", [Some (S_ "xb")])]) (Some [(S_ "ids", [Some (S_ "b"); Some (S_ "c")])]) c) /\
  matched (match_headers w (Some [(S_ "X-IDS", [S_ "b"; S_ "b"])]) (Some A) (header_context w (header_rule (S_ "X-Ids") rl))).
Proof.
  intro w. cbv zeta. split; [|split; [|split; [|split; [|split]]]].
  - intros n H. vm_compute in H. discriminate.
  - intros n H. vm_compute in H. discriminate.
  - repeat constructor.
  - intros k l I. vm_compute in I. destruct I as [I|[]]. injection I as <- <-. reflexivity.
  - intro H. specialize (H (S_ "ids")). refine (_ (H _ (or_introl eq_refl))). vm_compute. discriminate.
  - intros k l I. vm_compute in I. destruct I as [I|[]]. injection I as <- <-. reflexivity.
Qed.
