(** C103: the V2 engine with matching rules on the path, the query and the headers. *)
From Coq Require Import Ascii String List Arith NArith ZArith Lia Bool Permutation.
From Verif Require PropPattern3.
From Verif Require Import Base PathExp Json Text TextProofs MatchingRules Matchers JsonCompare Headers HeaderProofs2 Query ContentType Http Base64 Engine EnginePlan EngineProofs SpecHeaders SpecEngine EngineJson EngineJudge EngineParts EngineRules EngineRequest EngineHeaders EngineBody EngineWhole PropEngine2.
Import ListNotations.
Open Scope N_scope.

(** The rules on the path. *)
Definition path_rules (rs : matching_rules) : option (list rule) :=
  match cat_rules (rules_for CPath rs) with (_, rl) :: _ => Some (rl_rules rl) | [] => None end.
Definition path_accepts (w : world) (rs : matching_rules) (e a : str) : Prop :=
  match path_rules rs with
  | Some rules => forall r, In r rules -> str_matches w e a r false = true
  | None => e = a
  end.
(** A rule on a query parameter or header holds for texts, or for lists of texts. *)
Definition values_with (w : world) (c : category_name) (rs : matching_rules) (acc : str -> list str -> list str -> Prop) : str -> list str -> list str -> Prop :=
  accepts_with (fun r e a => str_matches w e a r false = true) (fun r e a => list_matches str_eqb e a r false = true) (selected_rules (ctx_for false c rs)) acc.
(** The conditions on rules: none on the body, and only kinds of rules the plans carry (or refuse). *)
Definition rules_fit (e : request) : Prop :=
  cat_rules (rules_for CBody (req_rules e)) = [] /\
  (cat_rules (rules_for CPath (req_rules e)) <> [] -> cat_name (rules_for CPath (req_rules e)) = CPath) /\
  (forall rules r, path_rules (req_rules e) = Some rules -> In r rules -> carried (for_single_item r)) /\
  (forall k rules r, In k (map fst (or_else_nil (req_query e))) -> selected_rules (ctx_for false CQuery (req_rules e)) k = Some rules -> In r rules -> carried r \/ refused r) /\
  (forall k rules r, In k (map fst (or_else_nil (req_headers e))) -> selected_rules (ctx_for false CHeader (req_rules e)) k = Some rules -> In r rules -> carried r \/ refused r).

Lemma path_decided w x ee a e : rules_fit e ->
  exists n', evals w x ee a [] (path_plan w e (ctx_for false CPath (req_rules e))) [] n' /\ pn_type n' = PContainer (S_ "path") /\
    (err_list (node_errors n') = None <-> path_accepts w (req_rules e) (req_path e) (req_path a)).
Proof.
  intros [_ [Hn [Hp _]]]. set (rs := req_rules e) in *. unfold path_accepts. 
  assert (HD : forall p, ctx_matcher_is_defined (ctx_for false CPath rs) p = match path_rules rs with Some _ => true | None => false end).
  { intro p. unfold ctx_matcher_is_defined, matcher_is_defined, resolve_matchers_for_path, cat_filter, cat_is_empty, ctx_for, path_rules. cbn [matchers].
    destruct (cat_rules (rules_for CPath rs)) as [|[q rl] l] eqn:E.
    - destruct (cat_name (rules_for CPath rs)); cbn [cat_rules]; rewrite ?E; reflexivity.
    - rewrite Hn by discriminate. rewrite ?E. reflexivity. }
  assert (HB : forall p rules, path_rules rs = Some rules -> rl_rules (ctx_select_best (ctx_for false CPath rs) p) = rules).
  { intros p rules H. unfold ctx_select_best, select_best_matcher, as_rule_list, resolve_matchers_for_path, ctx_for, path_rules in *. cbn [matchers].
    destruct (cat_rules (rules_for CPath rs)) as [|[q rl] l] eqn:E; [discriminate H|]. rewrite Hn by discriminate. rewrite ?E. congruence. }
  destruct (path_rules rs) as [rules|] eqn:Er.
  - specialize (HB (known_path w "$.path") rules eq_refl).
    destruct (path_rules_part w x ee a e (ctx_for false CPath rs)) as [n' [H1 [H2 H3]]]; [now rewrite HD | rewrite HB; apply Forall_forall; intros r Hr; exact (Hp rules r eq_refl Hr)|].
    exists n'. split; [exact H1|]. split; [exact H2|]. rewrite HB in H3. exact H3.
  - apply (path_part w x ee a e (ctx_for false CPath rs)). intro p. now rewrite HD.
Qed.
(** For every expected request with rules on path, query and headers and every actual request (under the
    conditions of [rules_fit], [query_fits], [headers_fit_by], [body_fits]): matching ends, and the parts match
    exactly when
    - the methods agree ignoring case,
    - the path satisfies all rules on the path, or without rules is equal,
    - the query has the same names, with values that satisfy all rules that apply to the name (or are equal
      in the sense of C102 when no rule applies),
    - every expected header is there, with the same condition on values. *)
Theorem C103_accepted_requests : forall w x ee e a,
  rules_fit e ->
  query_fits (req_query e) (req_query a) ->
  headers_fit_by (to_lower w) (is_space w) (fun k => selected_rules (ctx_for false CHeader (req_rules e)) k = None) (req_headers e) (req_headers a) ->
  body_fits (expected_type w x e) (json_of_bytes x) (fun v => utf8 (json_show w v)) (req_body e) (req_body a) ->
  decided w x ee e a
    (to_upper w (req_method e) = to_upper w (req_method a))
    (path_accepts w (req_rules e) (req_path e) (req_path a))
    (query_accepts_by (values_with w CQuery (req_rules e) (fun _ => values_accept)) (req_query e) (req_query a))
    (headers_accept_by (to_lower w) (values_with w CHeader (req_rules e) (header_value_accepts (to_lower w) (is_space w))) (req_headers e) (req_headers a))
    (body_accepts (expected_type w x e)
       (exists ct, content_type_of w x (req_part a) = Some ct /\ ct_show ct = ct_show (expected_type w x e))
       (json_of_bytes x) (utf8_lossy ee) (req_body e) (req_body a)).
Proof.
  intros w x ee e a Hf Hq Hh Hb. pose proof (path_decided w x ee a e Hf) as HP. destruct Hf as [F1 [_ [_ [F4 F5]]]].
  exact (request_decided w x ee e a _ F1 HP F4 Hq F5 Hh Hb).
Qed.

(** * Consequences *)
(** A parameter with a [min-max-type] rule is never accepted. *)
Theorem C103_min_max_never_accepted : forall w x ee e a k vs rules lo hi,
  rules_fit e -> query_fits (req_query e) (req_query a) ->
  headers_fit_by (to_lower w) (is_space w) (fun k => selected_rules (ctx_for false CHeader (req_rules e)) k = None) (req_headers e) (req_headers a) ->
  body_fits (expected_type w x e) (json_of_bytes x) (fun v => utf8 (json_show w v)) (req_body e) (req_body a) ->
  In (k, vs) (or_else_nil (req_query e)) -> looked_up (S_ "query") k = k ->
  selected_rules (ctx_for false CQuery (req_rules e)) k = Some rules -> In (RMinMaxType lo hi) rules ->
  exists N st r, (forall f, (N <= f)%nat -> match_request_v2 w x ee f e a = Runs st r) /\ v2_all_matched r = false.
Proof.
  intros w x ee e a k vs rules lo hi Hf Hq Hh Hb Hk Hl Hs Hr.
  destruct (C103_accepted_requests w x ee e a Hf Hq Hh Hb) as [n [st [r [H1 [_ [_ [_ [_ [_ H2]]]]]]]]].
  exists n, st, r. split; [exact H1|]. destruct (v2_all_matched r) eqn:E; [|reflexivity]. exfalso.
  pose proof (proj1 H2 eq_refl) as E'. clear E H2. destruct E' as [_ [_ [E _]]]. unfold query_accepts_by in E. destruct (or_else_nil (req_query e)) as [|kv es] eqn:Ee; [destruct Hk|].
  destruct E as [E1 E2]. assert (Hin : In k (map fst (or_else_nil (req_query a)))) by (apply E1; apply (in_map fst) in Hk; exact Hk).
  apply in_map_iff in Hin as [[k' us] [Ek Hu]]. cbn [fst] in Ek. subst k'.
  specialize (E2 k vs us Hk). rewrite Hl in E2. specialize (E2 Hu). unfold values_with, accepts_with in E2. rewrite Hs in E2.
  destruct (E2 _ Hr) as [C _]. exact C.
Qed.
(** The path: what the V2 engine accepts, the default engine accepts, when there is at least one rule; with
    several rules combined by "or" the default engine accepts more, and a list of no rules is refused by the
    default engine and accepts every path in the V2 engine. *)
Theorem C103_path_no_weaker : forall w rs e a rules,
  (cat_rules (rules_for CPath rs) <> [] -> cat_name (rules_for CPath rs) = CPath) ->
  (forall p rl, In (p, rl) (cat_rules (rules_for CPath rs)) -> rl_cascaded rl = false) ->
  path_rules rs = Some rules -> rules <> [] ->
  path_accepts w rs e a -> match_path w e a (ctx_for false CPath rs) = [].
Proof.
  intros w rs e a rules Hn Hc Hr Hne H. unfold path_accepts in H. rewrite Hr in H. unfold match_path, path_rules in *.
  unfold ctx_matcher_is_defined, ctx_select_best, matcher_is_defined, select_best_matcher, as_rule_list, resolve_matchers_for_path, cat_is_empty, ctx_for. cbn [matchers].
  destruct (cat_rules (rules_for CPath rs)) as [|[q rl] l] eqn:E; [discriminate Hr|]. injection Hr as <-. rewrite Hn by discriminate. rewrite ?E. cbn [negb].
  unfold match_values. specialize (Hc q rl (or_introl eq_refl)). rewrite Hc. unfold rl_is_empty. destruct (rl_rules rl) as [|r l'] eqn:El; [congruence|].
  assert (F : forallb (fun r => str_matches w e a r false) (r :: l') = true) by (apply forallb_forall; exact H).
  destruct (rl_logic rl); [now rewrite F|]. cbn [existsb]. rewrite (H r (or_introl eq_refl)). reflexivity.
Qed.
Theorem C103_or_means_and : exists rs e a,
  path_rules rs = Some [REquality; RInteger] /\ match_path PropPattern3.digits_world e a (ctx_for false CPath rs) = [] /\
  ~ path_accepts PropPattern3.digits_world rs e a.
Proof.
  exists [(CPath, mkCat CPath [(path_empty, mkRules [REquality; RInteger] Or false)])], (S_ "/x"), (S_ "/x").
  split; [reflexivity|]. split; [reflexivity|]. intro H. specialize (H RInteger (or_intror (or_introl eq_refl))). vm_compute in H. discriminate H.
Qed.
Theorem C103_no_rules_accept_all : forall w e a, let rs := [(CPath, mkCat CPath [(path_empty, mkRules [] And false)])] in
  path_accepts w rs e a /\ match_path w e a (ctx_for false CPath rs) <> [].
Proof. intros w e a rs. split; [intros r []|]. discriminate. Qed.

(** * A case that meets the hypotheses *)
Definition ruled_request (body_text : string) : request :=
  mkReq (S_ "post") (S_ "/x/1") (Some [(S_ "q", [Some (S_ "1")]); (S_ "r", [Some (S_ "b"); Some (S_ "c")])])
    (Some [(S_ "X-A", [S_ "1"])]) (BPresent (S_ body_text) None None)
    [(CPath, mkCat CPath [(path_empty, mkRules [RInclude (S_ "/x/")] And false)]);
     (CQuery, mkCat CQuery [(join path_root (S_ "q"), mkRules [RInteger; RMaxType 2] And false); (join path_root (S_ "r"), mkRules [RMinType 2] And false)]);
     (CHeader, mkCat CHeader [(join path_root (S_ "X-A"), mkRules [RInteger] Or false)])].
Definition plain_request (path : string) (q r : list (option str)) (x_a : list str) : request :=
  mkReq (S_ "POST") (S_ path) (Some [(S_ "r", r); (S_ "q", q)]) (Some [(S_ "x-a", x_a)]) (BPresent (S_ "text") None None) [].
Theorem C103_hypotheses_met : forall path q r x_a,
  let w := PropPattern3.digits_world in let e := ruled_request "text" in let a := plain_request path q r x_a in
  rules_fit e /\ query_fits (req_query e) (req_query a) /\
  headers_fit_by (to_lower w) (is_space w) (fun k => selected_rules (ctx_for false CHeader (req_rules e)) k = None) (req_headers e) (req_headers a) /\
  body_fits (expected_type w engine_ext e) (json_of_bytes engine_ext) (fun v => utf8 (json_show w v)) (req_body e) (req_body a).
Proof.
  intros path q r x_a w e a. split; [|split; [|split]].
  - split; [reflexivity|]. split; [reflexivity|]. split; [|split].
    + intros rules r0 H Hr. vm_compute in H. injection H as <-. destruct Hr as [<-|[]]. exact I.
    + intros k rules r0 Hk H Hr. destruct Hk as [<-|[<-|[]]]; vm_compute in H; injection H as <-; [destruct Hr as [<-|[<-|[]]] | destruct Hr as [<-|[]]]; left; exact I.
    + intros k rules r0 Hk H Hr. destruct Hk as [<-|[]]; vm_compute in H; injection H as <-. destruct Hr as [<-|[]]. left. exact I.
  - split; [|split].
    + vm_compute. repeat (apply NoDup_cons; [intro; cbn in *; intuition discriminate|]). apply NoDup_nil.
    + vm_compute. repeat (apply NoDup_cons; [intro; cbn in *; intuition discriminate|]). apply NoDup_nil.
    + vm_compute. intuition discriminate.
  - split; [|split].
    + vm_compute. repeat (apply NoDup_cons; [intro; cbn in *; intuition discriminate|]). apply NoDup_nil.
    + unfold unique_names. vm_compute. repeat (apply NoDup_cons; [intro; cbn in *; intuition discriminate|]). apply NoDup_nil.
    + intros k vs [E|[]]; injection E as <- <-. split; [discriminate|]. split; [discriminate|]. intros [E|E]; discriminate E.
  - split; [discriminate|]. intros _. reflexivity.
Qed.
Theorem C103_example : let run path q r h := match_request_v2 PropPattern3.digits_world engine_ext plain_texts 60 (ruled_request "text") (plain_request path q r h) in
  let accepted path q r h := exists res, run path q r h = Runs [] res /\ v2_all_matched res = true in
  let refused path q r h := exists res, run path q r h = Runs [] res /\ v2_all_matched res = false in
  let i s := [Some (S_ s)] in
  accepted "/x/2"%string (i "22"%string) (i "b"%string ++ i "b"%string) [S_ "7"] /\
  accepted "/x/"%string (i "1"%string ++ i "2"%string ++ i "3"%string) (i "u"%string ++ i "v"%string ++ i "w"%string) [S_ "7"; S_ "8"] /\
  refused "/y"%string (i "22"%string) (i "b"%string ++ i "b"%string) [S_ "7"] /\
  refused "/x/2"%string (i "a"%string) (i "b"%string ++ i "b"%string) [S_ "7"] /\
  refused "/x/2"%string (i "22"%string) (i "b"%string) [S_ "7"] /\
  refused "/x/2"%string (i "22"%string) (i "b"%string ++ i "b"%string) [S_ "7"; S_ "x"].
Proof. cbv zeta. repeat split; eexists; (split; [vm_compute; reflexivity | reflexivity]). Qed.
