(** The parts of a request plan without rules. *)
From Coq Require Import Ascii String List Arith NArith ZArith Lia Bool Permutation.
From Verif Require Import Base PathExp Json Text TextProofs MatchingRules Matchers JsonCompare Headers HeaderProofs2 Query ContentType Http Base64 Engine EnginePlan EngineProofs SpecHeaders SpecEngine EngineJson EngineJudge EngineParts EngineRules.
Import ListNotations.
Open Scope N_scope.

Section Parts.
Variable w : world.
Variable x : externals.
Variable ee : engine_texts.
Variable actual : request.
Notation evals := (evals w x ee actual).
Notation evs := (evs w x ee actual).
Notation tells := (tells w x ee actual).

(** Actions on the values of several children. *)
Lemma ev_values st (a : string) ch ch' vs f0 :
  (forall f ch, execute_action w x ee (walk w x ee actual f) f (S_ a) st None ch = with_values (walk w x ee actual f) f (PAction (S_ a)) st ch f0) ->
  Forall (fun c => pn_result c = None) ch -> evs st ch ch' -> no_splat ch' -> Forall2 value_is ch' vs ->
  evals st (action a ch) st (PN (PAction (S_ a)) (Some (f0 vs)) ch').
Proof.
  intros Ha Hn Hev Hs Hv.
  assert (G : exists k, forall f g, (k <= f)%nat -> (k <= g)%nat -> forall done vs0, evaluate (walk w x ee actual f) g st ch done vs0 = Runs st (inl (done ++ ch', vs0 ++ vs))).
  { clear Ha. revert vs Hn Hs Hv. induction Hev as [|c c' l l' [k1 H1] _ IH]; intros vs Hn Hs Hv.
    - inversion Hv; subst. exists O. intros f g _ _ done vs0. destruct g; cbn; now rewrite !app_nil_r.
    - inversion Hv as [|? v ? vs' Hv1 Hv2]; subst. destruct (IH vs' (Forall_inv_tail Hn) (Forall_inv_tail Hs) Hv2) as [k2 H2]. exists (S (k1 + k2)).
      intros f g Hf Hg done vs0. destruct g as [|g]; [lia|]. cbn [evaluate]. rewrite (Forall_inv Hn), H1 by lia. cbn [catch_].
      rewrite (Forall_inv Hs), (value_is_value _ _ Hv1), H2 by lia. now rewrite <- !app_assoc. }
  destruct G as [k Hk]. apply ev_node. exists k. intros f Hf. unfold walk_node, action. rewrite Ha. unfold with_values. rewrite Hk by lia. reflexivity.
Qed.

(** ** Method and path *)
Lemma method_part e : exists n', evals [] (method_plan w e) [] n' /\ pn_type n' = PContainer (S_ "method") /\
  (node_error n' = None <-> to_upper w (req_method e) = to_upper w (req_method actual)).
Proof.
  assert (HU : evals [] (action "upper-case" [resolve_node (known_path w "$.method")]) [] (PN (PAction (S_ "upper-case")) (Some (NVal (NString (to_upper w (req_method actual))))) [PN (PResolve (known_path w "$.method")) (Some (NVal (NString (req_method actual)))) []])).
  { apply (ev_values_one w x ee actual [] "upper-case" _ _ (NString (req_method actual)) (fun vs => NVal (one_or_values (map (recase w (to_upper w)) vs)))); [reflexivity | reflexivity | | reflexivity | reflexivity].
    apply ev_resolve. reflexivity. }
  pose proof (ev_equality w x ee actual [] _ _ _ _ (NString (to_upper w (req_method e))) _ (ev_text w x ee actual [] (to_upper w (req_method e))) HU eq_refl eq_refl) as HE.
  eexists. split; [apply ev_container; [constructor; [apply ev_annotation|]; constructor; [exact HE | constructor] | repeat constructor]|]. split; [reflexivity|].
  cbn [value_matches str_matches]. destruct (str_eqb_spec (to_upper w (req_method e)) (to_upper w (req_method actual))) as [E|E].
  - split; [intros _; exact E | reflexivity].
  - split; [discriminate | congruence].
Qed.
Lemma path_part e c : (forall p, ctx_matcher_is_defined c p = false) ->
  exists n', evals [] (path_plan w e c) [] n' /\ pn_type n' = PContainer (S_ "path") /\
  (err_list (node_errors n') = None <-> req_path e = req_path actual).
Proof.
  intro Hc. unfold path_plan. rewrite Hc.
  assert (HP : evals [] (resolve_node (known_path w "$.path")) [] (PN (PResolve (known_path w "$.path")) (Some (NVal (NString (req_path actual)))) [])) by (apply ev_resolve; reflexivity).
  pose proof (ev_equality w x ee actual [] _ _ _ _ (NString (req_path e)) _ (ev_text w x ee actual [] (req_path e)) HP eq_refl eq_refl) as HE.
  eexists. split; [apply ev_container; [constructor; [apply ev_annotation|]; constructor; [exact HE | constructor] | repeat constructor]|]. split; [reflexivity|].
  cbn [value_matches str_matches]. destruct (str_eqb_spec (req_path e) (req_path actual)) as [E|E].
  - split; [intros _; exact E | reflexivity].
  - split; [discriminate | congruence].
Qed.

Lemma path_rules_part e c : ctx_matcher_is_defined c (known_path w "$.path") = true ->
  let rs := rl_rules (ctx_select_best c (known_path w "$.path")) in
  Forall (fun r => carried (for_single_item r)) rs ->
  exists n', evals [] (path_plan w e c) [] n' /\ pn_type n' = PContainer (S_ "path") /\
  (err_list (node_errors n') = None <-> forall r, In r rs -> text_sat w r (req_path e) (req_path actual)).
Proof.
  intros Hc rs Hrs. unfold path_plan. rewrite Hc.
  assert (HP : evals [] (resolve_node (known_path w "$.path")) [] (PN (PResolve (known_path w "$.path")) (Some (NVal (NString (req_path actual)))) [])) by (apply ev_resolve; reflexivity).
  assert (HT : tells [] [container (S_ "path") [annotation []; rule_node (value_node (NString (req_path e))) (resolve_node (known_path w "$.path")) (ctx_select_best c (known_path w "$.path")) false]] (forall r, In r rs -> text_sat w r (req_path e) (req_path actual))).
  { apply tells_container; [|constructor; [reflexivity|]; constructor; [apply rule_node_splat | constructor]].
    eapply tells_iff; [apply tells_cons; [apply tells_annotation|]; apply (tells_rule_node w x ee actual [] _ _ _ _ (NString (req_path e)) (NString (req_path actual)) false _ (ev_text w x ee actual [] (req_path e)) HP); try reflexivity|].
    - eapply Forall_impl; [|exact Hrs]. intros r Hr. now apply single_runs.
    - fold rs. rewrite Forall_forall in *. split.
      + intros [_ H] r Hr. apply (holds_text w ee r _ _ (Hrs r Hr)). exact (H r Hr).
      + intro H. split; [exact I|]. intros r Hr. apply (holds_text w ee r _ _ (Hrs r Hr)). exact (H r Hr). }
  destruct (tells_inv _ _ _ _ _ _ _ HT) as [n' [H1 [H2 H3]]]. exists n'. split; [exact H1|]. split; [exact H2|].
  destruct H3 as [[HP' Hq]|[HP' Hq]].
  - split; [intros _; exact HP'|]. intros _. unfold quiet in Hq. now rewrite Hq.
  - split; [|contradiction]. destruct (node_errors n'); [congruence | discriminate].
Qed.

(** ** Query *)
Definition found_values (o : option (list str)) : nvalue := match o with Some vs => one_or_list vs | None => NNull end.
Lemma found_some o : found_values o <> NNull <-> exists vs, o = Some vs.
Proof.
  destruct o as [vs|]; cbn; [|split; [congruence | intros [vs H]; discriminate]]. split; [eauto|]. intros _. destruct vs as [|v [|v' vs]]; discriminate.
Qed.
Lemma joined_tokens base part k : path_tokens base = [TRoot; TField part] -> k <> S_ "*" ->
  exists t, path_tokens (join base k) = [TRoot; TField part; t] /\ t <> TStar /\ first_field_of [t; TField part; TRoot] = Some (looked_up part k) /\
    (t = TStarIndex <-> k = S_ "[*]").
Proof.
  intros Hb Hk. unfold join, looked_up. destruct (str_eqb_spec k (S_ "*")) as [E|_]; [congruence|].
  destruct (str_eqb_spec k (S_ "[*]")) as [E|E].
  - exists TStarIndex. unfold push_star_index, push. cbn [path_tokens]. rewrite Hb. repeat split; auto; discriminate.
  - destruct (parse_usize k) as [i|].
    + exists (TIndex i). unfold push_index, push. cbn [path_tokens]. rewrite Hb. repeat split; auto; try discriminate; congruence.
    + exists (TField k). unfold push_field, push. cbn [path_tokens]. rewrite Hb. repeat split; auto; try discriminate; congruence.
Qed.
Lemma resolve_query k : k <> S_ "*" ->
  resolve w x actual (join (known_path w "$.query") k) = Ok (found_values (obj_get (looked_up (S_ "query") k) (query_values (req_query actual)))).
Proof.
  intro Hk. destruct (joined_tokens (known_path w "$.query") (S_ "query") k eq_refl Hk) as [t [Ht [Hs [Hl _]]]].
  unfold resolve, first_field, last_field, is_wildcard, path_last. rewrite Ht.
  replace (first_field_of (rev [TRoot; TField (S_ "query"); t])) with (Some (looked_up (S_ "query") k)) by (symmetry; exact Hl).
  replace (first_field_of [TRoot; TField (S_ "query"); t]) with (Some (S_ "query")) by reflexivity.
  replace (str_eqb (S_ "query") (S_ "method")) with false by reflexivity.
  replace (str_eqb (S_ "query") (S_ "path")) with false by reflexivity. rewrite str_eqb_refl.
  cbn [length rev app Nat.eqb orb andb dflt]. destruct t; try congruence; reflexivity.
Qed.
Definition query_acc (c : context) : str -> list str -> list str -> Prop :=
  accepts_with (text_sat w) list_sat (selected_rules c) (fun _ => values_accept).
Lemma tells_selected c k vs us p rl : selected_rules c k = Some (rl_rules rl) -> (forall r, In r (rl_rules rl) -> usable r) ->
  resolve w x actual p = Ok (one_or_list us) -> forall acc,
  tells [] [rule_node (value_node (one_or_list vs)) (resolve_node p) rl true] (accepts_with (text_sat w) list_sat (selected_rules c) acc k vs us).
Proof.
  intros Hs Hu Hr acc. unfold accepts_with. rewrite Hs.
  eapply tells_iff; [eapply (tells_rule_node w x ee actual [] _ _ _ _ (one_or_list vs) (one_or_list us) true rl); [apply (ev_value w x ee actual [] (one_or_list vs) (one_or_list vs)); destruct vs as [|v [|v' vs]]; reflexivity | apply ev_resolve; exact Hr | reflexivity | reflexivity | reflexivity | reflexivity |]|].
  - apply Forall_forall. intros r Hr'. apply usable_runs. now apply Hu.
  - rewrite Forall_forall. split; intros H r Hr'; [apply (holds_list w ee r vs us (Hu r Hr')) | apply (holds_list w ee r vs us (Hu r Hr'))]; exact (H r Hr').
Qed.
Lemma tells_query_item c k vs : (forall rs r, selected_rules c k = Some rs -> In r rs -> usable r) -> k <> S_ "*" ->
  tells [] [query_item w c (k, vs)] (forall us, obj_get (looked_up (S_ "query") k) (query_values (req_query actual)) = Some us -> query_acc c k vs us).
Proof.
  intros Hu Hk. unfold query_item. pose proof (resolve_query k Hk) as Hr. set (o := obj_get _ _) in *.
  destruct (ctx_matcher_is_defined c (join path_root k)) eqn:Ed.
  { assert (Hsel : selected_rules c k = Some (rl_rules (ctx_select_best c (join path_root k)))) by (unfold selected_rules; now rewrite Ed).
    apply tells_container; [|repeat constructor]. apply (tells_iff w x ee actual [] _ (True /\ (found_values o <> NNull -> forall us, o = Some us -> query_acc c k vs us))).
    - apply tells_cons; [apply tells_annotation|]. apply (tells_presence w x ee actual [] _ (found_values o)); [exact Hr | | now left|].
      + constructor; [|constructor]. apply quiet_rule_node; [destruct vs as [|v [|v' vs]]; reflexivity | reflexivity].
      + intro Hv. apply found_some in Hv as [us E]. rewrite E in *. cbn [found_values] in Hr.
        eapply tells_iff; [apply (tells_selected c k vs us _ _ Hsel (fun r => Hu _ r Hsel) Hr (fun _ => values_accept))|].
        split; [intros H u Eu; injection Eu as <-; exact H | intro H; exact (H us eq_refl)].
    - split; [|tauto]. intros [_ H] us E. apply H; [|exact E]. apply found_some. eauto. }
  assert (Hq : forall us, query_acc c k vs us <-> values_accept vs us) by (intro us; unfold query_acc, accepts_with, selected_rules; rewrite Ed; reflexivity).
  apply (tells_iff w x ee actual [] _ (forall us, o = Some us -> values_accept vs us)); [|split; intros H us E; apply Hq; exact (H us E)]. clear Hu Hq.
  
  apply tells_container; [|repeat constructor]. apply (tells_iff w x ee actual [] _ (True /\ (found_values o <> NNull -> forall us, o = Some us -> values_accept vs us))).
  - apply tells_cons; [apply tells_annotation|]. apply (tells_presence w x ee actual [] _ (found_values o)); [exact Hr | | now left|].
    + constructor; [|constructor]. destruct vs as [|v [|v' vs]]; reflexivity.
    + intro Hv. apply found_some in Hv as [us E]. rewrite E in *. cbn [found_values] in Hr.
      eapply tells_iff; [apply judges_tells; eapply (judges_equality w x ee actual []) with (v1 := one_or_list vs) (v2 := one_or_list us); [apply ev_value; destruct vs as [|v [|v' vs]]; reflexivity | apply ev_resolve; exact Hr | reflexivity | reflexivity | reflexivity | reflexivity]|].
      rewrite one_or_list_matches. split; [intros H u Eu; injection Eu as <-; exact H | intro H; exact (H us eq_refl)].
  - split; [|tauto]. intros [_ H] us E. apply H; [|exact E]. apply found_some. eauto.
Qed.
Lemma label_same l l' : Forall2 same_type l l' -> flat_map label_of l' = flat_map label_of l.
Proof. induction 1 as [|a b l l' H _ IH]; [reflexivity|]. cbn. rewrite IH. unfold label_of. now rewrite H. Qed.
Lemma container_same l l' : Forall2 same_type l l' -> Forall (fun n => is_container n = true) l -> Forall (fun n => is_container n = true) l'.
Proof. induction 1 as [|a b l l' H _ IH]; intro F; constructor; [apply Forall_inv in F; unfold is_container in *; now rewrite H | apply IH; now apply Forall_inv_tail in F]. Qed.
(** Named entries followed by checks that report their own errors. *)
Lemma entries_told items items' checks' (P : Prop) Qs lb r : evs [] items items' -> Forall2 same_type items items' ->
  ((P /\ Forall quiet items') \/ (~ P /\ Exists (fun n => node_errors n <> []) items')) ->
  NoDup (flat_map label_of items) -> Forall (fun n => is_container n = true) items ->
  Forall2 (fun Q n => is_container n = false /\ ((Q /\ quiet n) \/ (~ Q /\ own_error n <> []))) Qs checks' ->
  (forallb (fun kv => is_nil (snd kv)) (entry_mismatches (PN (PContainer lb) r (items' ++ checks'))) = true <-> P /\ Forall (fun Q => Q) Qs).
Proof.
  intros Hev Ht Hi Hl Hc Hq.
  assert (HL : flat_map label_of checks' = []).
  { clear - Hq. induction Hq as [|Q n Qs l [H _] _ IH]; [reflexivity|]. cbn. rewrite IH, app_nil_r. unfold label_of, is_container in *. destruct (pn_type n); (reflexivity || discriminate). }
  rewrite entries_read.
  - cbn [pn_children]. rewrite Forall_app. 
    assert (H1 : Forall quiet items' <-> P).
    { destruct Hi as [[HP H]|[HP H]]; [tauto|]. split; [|tauto]. intro F. exfalso. apply Exists_exists in H as [n [Hn He]]. rewrite Forall_forall in F. exact (He (F n Hn)). }
    assert (H2 : Forall quiet checks' <-> Forall (fun Q => Q) Qs).
    { clear - Hq. induction Hq as [|Q n Qs l [_ H] _ IH]; [split; constructor|]. split; intro F; constructor.
      - destruct H as [[HQ _]|[_ He]]; [exact HQ|]. apply Forall_inv in F. exfalso. apply He. apply quiet_children in F. tauto.
      - apply IH. now apply Forall_inv_tail in F.
      - destruct H as [[_ Hn]|[HQ _]]; [exact Hn|]. apply Forall_inv in F. tauto.
      - apply IH. now apply Forall_inv_tail in F. }
    tauto.
  - cbn [pn_children]. rewrite flat_map_app, HL, app_nil_r, (label_same _ _ Ht). exact Hl.
  - cbn [pn_children]. intros n Hn Hnc He. apply in_app_or in Hn as [Hn|Hn].
    + pose proof (container_same _ _ Ht Hc) as F. rewrite Forall_forall in F. rewrite (F n Hn) in Hnc. discriminate.
    + clear - Hq Hn He. induction Hq as [|Q m Qs l [_ H] _ IH]; [destruct Hn|]. destruct Hn as [->|Hn]; [|now apply IH].
      destruct H as [[_ Hq']|[_ H]]; [|exact H]. congruence.
Qed.
Lemma tells_map {A} st (f : A -> pnode) (P : A -> Prop) l : (forall a, In a l -> tells st [f a] (P a)) -> tells st (map f l) (forall a, In a l -> P a).
Proof.
  induction l as [|a l IH]; intro H.
  - eapply tells_iff; [apply tells_nil|]. split; [intros _ ? [] | exact (fun _ => I)].
  - cbn [map]. eapply tells_iff; [apply tells_cons; [apply H; now left | apply IH; intros; apply H; now right]|].
    split; [intros [H1 H2] b [<-|Hb]; auto | intro G; split; [apply G; now left | intros; apply G; now right]].
Qed.
Lemma keys_query q : map fst (query_values q) = map fst (dflt q []).
Proof. unfold query_values. rewrite map_map. reflexivity. Qed.
Lemma resolve_whole_query : resolve w x actual (known_path w "$.query") = Ok (NMmap (query_values (req_query actual))).
Proof. reflexivity. Qed.
Definition no_star (l : list str) : Prop := ~ In (S_ "*") l.
Lemma query_part e c : (forall k rs r, In k (map fst (dflt (req_query e) [])) -> selected_rules c k = Some rs -> In r rs -> usable r) ->
  NoDup (map fst (dflt (req_query e) [])) -> NoDup (map fst (dflt (req_query actual) [])) -> no_star (map fst (dflt (req_query e) [])) ->
  exists n', evals [] (query_plan w e c) [] n' /\ pn_type n' = PContainer (S_ "query parameters") /\
    (forallb (fun kv => is_nil (snd kv)) (entry_mismatches n') = true <-> query_accepts_by (query_acc c) (req_query e) (req_query actual)).
Proof.
  intros Hc Ne Na Hs. pose proof (ev_resolve w x ee actual [] _ _ resolve_whole_query) as Hw. set (qa := query_values (req_query actual)) in *.
  assert (HA : forall k us, obj_get k qa = Some us <-> exists us', In (k, us') (or_else_nil (req_query actual)) /\ us = as_texts us').
  { intros k us. split.
    - intro H. apply obj_get_in in H. unfold qa, query_values in H. apply in_map_iff in H as [[k' us'] [E H]]. cbn [fst snd] in E. injection E as -> <-.
      exists us'. split; [exact H | reflexivity].
    - intros [us' [H ->]]. apply obj_get_nodup; [unfold keys; unfold qa; rewrite keys_query; exact Na|].
      unfold qa, query_values. apply in_map_iff. exists (k, us'). split; [reflexivity | exact H]. }
  assert (HE : or_else_nil (req_query e) = [] ->
    exists n', evals [] (container (S_ "query parameters") [action "expect:empty" [resolve_node (known_path w "$.query"); action "join" [text_node "Expected no query parameters but got "; resolve_node (known_path w "$.query")]]]) [] n' /\ pn_type n' = PContainer (S_ "query parameters") /\
    (forallb (fun kv => is_nil (snd kv)) (entry_mismatches n') = true <-> query_accepts_by (query_acc c) (req_query e) (req_query actual))).
  { intro Ee. unfold query_accepts_by. rewrite Ee.
    set (J := action "join" [text_node "Expected no query parameters but got "; resolve_node (known_path w "$.query")]).
    destruct (ev_args w x ee actual [] 1 1 [resolve_node (known_path w "$.query")] [J] [PN (PResolve (known_path w "$.query")) (Some (NVal (NMmap qa))) []]) as [k Hk].
    { constructor; [exact Hw | constructor]. } { reflexivity. } { cbn; lia. }
    cbn [app] in Hk.
    assert (HJ : exists j', evals [] J [] (PN (PAction (S_ "join")) (Some (NVal (NString (joined w ee false [NString (S_ "Expected no query parameters but got "); NMmap qa])))) j')).
    { eexists. apply (ev_values [] "join" _ _ [NString (S_ "Expected no query parameters but got "); NMmap qa] (fun vs => NVal (NString (joined w ee false vs)))); [reflexivity | repeat constructor | | |].
      - constructor; [apply ev_text|]. constructor; [exact Hw | constructor].
      - repeat constructor.
      - constructor; [reflexivity|]. constructor; [reflexivity | constructor]. }
    destruct HJ as [j' [k2 HJ]]. destruct (is_nil qa) eqn:En.
    - eexists. split; [apply ev_container; [constructor; [|constructor]|]|].
      + apply ev_node. exists k. intros f Hf.
        change (walk_node w x ee actual (walk w x ee actual f) f [] (action "expect:empty" [resolve_node (known_path w "$.query"); J])) with
          (expect_empty w ee (walk w x ee actual f) (PAction (S_ "expect:empty")) [] [resolve_node (known_path w "$.query"); J]).
        unfold expect_empty. rewrite Hk by assumption. cbn [catch_]. cbn [pn_value pn_result value_or_null value_is_empty]. rewrite En. reflexivity.
      + repeat constructor.
      + split; [reflexivity|]. split; [intros _|reflexivity]. unfold qa, query_values in En. destruct (req_query actual) as [[|kv q]|]; [reflexivity | discriminate En | reflexivity].
    - eexists. split; [apply ev_container; [constructor; [|constructor]|]|].
      + apply ev_node. exists (k + k2)%nat. intros f Hf.
        change (walk_node w x ee actual (walk w x ee actual f) f [] (action "expect:empty" [resolve_node (known_path w "$.query"); J])) with
          (expect_empty w ee (walk w x ee actual f) (PAction (S_ "expect:empty")) [] [resolve_node (known_path w "$.query"); J]).
        unfold expect_empty. rewrite Hk by lia. cbn [catch_]. cbn [pn_value pn_result value_or_null value_is_empty]. rewrite En.
        unfold custom_error. rewrite HJ by lia. cbn [catch_ pn_value pn_result as_string dflt app]. reflexivity.
      + repeat constructor.
      + split; [reflexivity|]. split; [discriminate|]. intro E. unfold qa, query_values in En. unfold or_else_nil in E. destruct (req_query actual) as [q|]; [rewrite E in En; discriminate En | discriminate En]. }
  unfold query_plan. destruct (req_query e) as [[|kv q]|] eqn:Eq; [apply HE; reflexivity | | apply HE; reflexivity]. clear HE.
  set (es := kv :: q) in *. set (items := by_key (query_values (Some es))).
  assert (Hp : Permutation items (query_values (Some es))) by apply by_key_perm.
  assert (Hkeys : Permutation (map fst items) (map fst es)).
  { rewrite (Permutation_map fst Hp). rewrite keys_query. reflexivity. }
  assert (Hin : forall k vs, In (k, vs) items <-> exists vs', In (k, vs') es /\ vs = as_texts vs').
  { intros k vs. split.
    - intro H. apply (Permutation_in _ Hp) in H. unfold query_values in H. apply in_map_iff in H as [[k' us'] [E H]]. cbn [fst snd] in E. injection E as -> <-. exists us'. split; [exact H | reflexivity].
    - intros [vs' [H ->]]. apply (Permutation_in _ (Permutation_sym Hp)). unfold query_values. apply in_map_iff. exists (k, vs'). split; [reflexivity | exact H]. }
  destruct (tells_map [] (query_item w c) (fun kv => forall us, obj_get (looked_up (S_ "query") (fst kv)) qa = Some us -> query_acc c (fst kv) (snd kv) us) items) as [items' [I1 [I2 I3]]].
  { intros [k vs] H. assert (Hkin : In k (map fst es)) by (apply (Permutation_in _ Hkeys); apply in_map_iff; exists (k, vs); auto).
    refine (tells_query_item c k vs (fun rs r => Hc k rs r Hkin) _). intros ->. apply Hs. apply (Permutation_in _ Hkeys). apply in_map_iff. exists (S_ "*", vs). auto. }
  assert (HV : evals [] (value_node (NSlist (map fst items))) [] (PN (PValue (NSlist (map fst items))) (Some (NVal (NSlist (map fst items)))) [])) by (now apply ev_value).
  destruct (tells_entries w x ee actual [] false _ _ _ _ (map fst items) qa "The following expected query parameters were missing: " HV Hw eq_refl eq_refl eq_refl eq_refl) as [c1 [C1 [C2 [C2' C3]]]].
  destruct (tells_entries w x ee actual [] true _ _ _ _ (map fst items) qa "The following query parameters were not expected: " HV Hw eq_refl eq_refl eq_refl eq_refl) as [c2 [D1 [D2 [D2' D3]]]].
  cbv iota zeta in C1, D1, C3, D3.
  assert (HL : flat_map label_of (map (query_item w c) items) = map fst items).
  { clear. induction items as [|[k vs] items IH]; [reflexivity|]. cbn. now rewrite IH. }
  assert (HC : Forall (fun n => is_container n = true) (map (query_item w c) items)).
  { apply Forall_forall. intros n H. apply in_map_iff in H as [[k vs] [<- _]]. reflexivity. }
  exists (PN (PContainer (S_ "query parameters")) (Some (truthy (folded (items' ++ [c1; c2]) NOk))) (items' ++ [c1; c2])). split; [|split; [reflexivity|]].
  - apply ev_container.
    + apply evs_app; [exact I1|]. constructor; [exact C1|]. constructor; [exact D1 | constructor].
    + apply Forall_app. split; [|repeat constructor; assumption]. apply (no_splat_same _ _ I2). apply Forall_forall. intros n H. apply in_map_iff in H as [[k vs] [<- _]]. reflexivity.
  - assert (HN : NoDup (flat_map label_of (map (query_item w c) items))) by (rewrite HL; apply (Permutation_NoDup (Permutation_sym Hkeys)); exact Ne).
    assert (HT := fun Qs F => entries_told _ items' [c1; c2] _ Qs (S_ "query parameters") (Some (truthy (folded (items' ++ [c1; c2]) NOk))) I1 I2 I3 HN HC F).
    rewrite (HT [forall k, In k (map fst items) -> In k (map fst qa); forall k, In k (map fst qa) -> In k (map fst items)]
      (Forall2_cons _ _ (conj C2 C3) (Forall2_cons _ _ (conj D2 D3) (Forall2_nil _)))). clear HT.
    unfold query_accepts_by. replace (or_else_nil (Some es)) with es by reflexivity. unfold es at 1. fold es.
    assert (HK : forall k, In k (map fst items) <-> In k (map fst es)) by (intro k; split; apply Permutation_in; [exact Hkeys | now symmetry]).
    assert (HQ : forall k, In k (map fst qa) <-> In k (map fst (or_else_nil (req_query actual)))) by (intro k; unfold qa; rewrite keys_query; reflexivity).
    split.
    + intros [G1 G2]. pose proof (Forall_inv G2) as G3. pose proof (Forall_inv (Forall_inv_tail G2)) as G4. cbv beta in G3, G4. split.
      * intro k. split; intro H; [apply HQ, G3, HK, H | apply HK, G4, HQ, H].
      * intros k vs us H1 H2. apply (G1 (k, as_texts vs)); [apply Hin; eauto|]. cbn [fst]. apply HA. eauto.
    + intros [G1 G2]. split.
      * intros [k vs] H us Hu. cbn [fst snd] in *. apply Hin in H as [vs' [H ->]]. apply HA in Hu as [us' [Hu ->]]. now apply (G2 k).
      * constructor; [|constructor; [|constructor]]; intros k H; [apply HQ, G1, HK, H | apply HK, G1, HQ, H].
Qed.
End Parts.
