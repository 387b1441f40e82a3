(** The V2 engine on a whole request, from its parts. *)
From Coq Require Import Ascii String List Arith NArith ZArith Lia Bool Permutation.
From Verif Require Import Base PathExp Json Text TextProofs MatchingRules Matchers JsonCompare Headers HeaderProofs2 Query ContentType Http Base64 Engine EnginePlan EngineProofs SpecHeaders SpecEngine EngineJson EngineJudge EngineParts EngineRules EngineRequest EngineHeaders EngineBody.
Import ListNotations.
Open Scope N_scope.

Lemma no_rules_defined cat p : ctx_matcher_is_defined (ctx_for false cat []) p = false.
Proof. destruct cat; reflexivity. Qed.
Lemma no_rules_best cat p : rl_is_empty (ctx_select_best (ctx_for false cat []) p) = true.
Proof. destruct cat; reflexivity. Qed.
Lemma no_rules_allow cat : allow (ctx_for false cat []) = false.
Proof. destruct cat; reflexivity. Qed.

Definition no_mismatches (l : list (str * list str)) : Prop := forall k ms, In (k, ms) l -> ms = [].
Lemma no_mismatches_read l : forallb (fun kv : str * list str => is_nil (snd kv)) l = true <-> no_mismatches l.
Proof.
  rewrite forallb_forall. unfold no_mismatches. split.
  - intros H k ms Hin. specialize (H _ Hin). cbn in H. destruct ms; [reflexivity | discriminate H].
  - intros H [k ms] Hin. cbn. now rewrite (H k ms Hin).
Qed.
(** The outcome of matching does not depend on the bound from some bound on, and says which parts match. *)
Definition decided (w : world) (x : externals) (ee : engine_texts) (e a : request) (method path query headers body : Prop) : Prop :=
  exists N st r, (forall f, (N <= f)%nat -> match_request_v2 w x ee f e a = Runs st r) /\
    (v2_method r = None <-> method) /\ (v2_path r = None <-> path) /\ (no_mismatches (v2_query r) <-> query) /\
    (no_mismatches (v2_headers r) <-> headers) /\ (v2_body_matched (v2_body_result r) = true <-> body) /\
    (v2_all_matched r = true <-> method /\ path /\ query /\ headers /\ body).
Lemma decide w x ee e a plan st n' (P1 P2 P3 P4 P5 : Prop) : request_plan w x ee e = Ok plan -> evals w x ee a [] plan st n' ->
  (method_mismatch n' = None <-> P1) -> (path_mismatch n' = None <-> P2) ->
  (forallb (fun kv => is_nil (snd kv)) (entry_mismatches (part_of n' "query parameters")) = true <-> P3) ->
  (forallb (fun kv => is_nil (snd kv)) (entry_mismatches (part_of n' "headers")) = true <-> P4) ->
  (v2_body_matched (body_read w (part_of n' "body")) = true <-> P5) ->
  decided w x ee e a P1 P2 P3 P4 P5.
Proof.
  intros Hp [k Hk] H1 H2 H3 H4 H5. exists k, st, (read_result w n'). split.
  - intros f Hf. unfold match_request_v2. rewrite Hp, Hk by exact Hf. reflexivity.
  - unfold v2_all_matched, read_result. cbn [v2_method v2_path v2_query v2_headers v2_body_result]. rewrite body_read_of. rewrite <- !no_mismatches_read.
    split; [exact H1|]. split; [exact H2|]. split; [exact H3|]. split; [exact H4|]. split; [exact H5|].
    rewrite !andb_true_iff, H3, H4, H5.
    assert (HN : forall A (o : option A), is_none o = true <-> o = None) by (intros A [?|]; cbn; split; (reflexivity || discriminate)).
    rewrite (HN _ (method_mismatch n')), (HN _ (path_mismatch n')), H1, H2. tauto.
Qed.

(** The whole request, for any rules on path, query and headers and none on the body. *)
Lemma no_body_rules_defined rs : cat_rules (rules_for CBody rs) = [] -> forall p, ctx_matcher_is_defined (ctx_for false CBody rs) p = false.
Proof.
  intros E p. unfold ctx_matcher_is_defined, matcher_is_defined, resolve_matchers_for_path, cat_filter, cat_is_empty, ctx_for. cbn [matchers].
  destruct (cat_name (rules_for CBody rs)); cbn [cat_rules]; rewrite E; reflexivity.
Qed.
Lemma no_body_rules_best rs : cat_rules (rules_for CBody rs) = [] -> forall p, rl_is_empty (ctx_select_best (ctx_for false CBody rs) p) = true.
Proof.
  intros E p. unfold ctx_select_best, select_best_matcher, ctx_for, max_by_path, as_rule_list, resolve_matchers_for_path, cat_filter. cbn [matchers].
  destruct (cat_name (rules_for CBody rs)); cbn [cat_rules]; rewrite E; reflexivity.
Qed.
Theorem request_decided : forall w x ee e a Pp,
  cat_rules (rules_for CBody (req_rules e)) = [] ->
  (exists n', evals w x ee a [] (path_plan w e (ctx_for false CPath (req_rules e))) [] n' /\ pn_type n' = PContainer (S_ "path") /\ (err_list (node_errors n') = None <-> Pp)) ->
  (forall k rs r, In k (map fst (or_else_nil (req_query e))) -> selected_rules (ctx_for false CQuery (req_rules e)) k = Some rs -> In r rs -> usable r) ->
  query_fits (req_query e) (req_query a) ->
  (forall k rs r, In k (map fst (or_else_nil (req_headers e))) -> selected_rules (ctx_for false CHeader (req_rules e)) k = Some rs -> In r rs -> usable r) ->
  headers_fit_by (to_lower w) (is_space w) (fun k => selected_rules (ctx_for false CHeader (req_rules e)) k = None) (req_headers e) (req_headers a) ->
  body_fits (expected_type w x e) (json_of_bytes x) (fun v => utf8 (json_show w v)) (req_body e) (req_body a) ->
  decided w x ee e a
    (to_upper w (req_method e) = to_upper w (req_method a))
    Pp
    (query_accepts_by (query_acc w (ctx_for false CQuery (req_rules e))) (req_query e) (req_query a))
    (headers_accept_by (to_lower w) (header_acc w (ctx_for false CHeader (req_rules e))) (req_headers e) (req_headers a))
    (body_accepts (expected_type w x e)
       (exists ct, content_type_of w x (req_part a) = Some ct /\ ct_show ct = ct_show (expected_type w x e))
       (json_of_bytes x) (utf8_lossy ee) (req_body e) (req_body a)).
Proof.
  intros w x ee e a Pp Hbody Hpath Hqu [Q1 [Q2 Q3]] Hhu Hh Hb. set (rs := req_rules e) in *.
  destruct (method_part w x ee a e) as [m' [M1 [M2 M3]]].
  destruct Hpath as [p' [P1 [P2 P3]]].
  destruct (query_part w x ee a e (ctx_for false CQuery rs) Hqu Q1 Q2 Q3) as [q' [A1 [A2 A3]]].
  destruct m' as [mt mr mc]. cbn [pn_type] in M2. subst mt. destruct p' as [pt pr pc]. cbn [pn_type] in P2. subst pt.
  destruct q' as [qt qr qc]. cbn [pn_type] in A2. subst qt.
  assert (HH : (or_else_nil (req_headers e) = [] /\ pn_children (header_plan w e (ctx_for false CHeader rs)) = [] /\ headers_accept_by (to_lower w) (header_acc w (ctx_for false CHeader rs)) (req_headers e) (req_headers a)) \/
    exists hr hc, pn_children (header_plan w e (ctx_for false CHeader rs)) <> [] /\ evals w x ee a [] (header_plan w e (ctx_for false CHeader rs)) [] (PN (PContainer (S_ "headers")) hr hc) /\
      (forallb (fun kv => is_nil (snd kv)) (entry_mismatches (PN (PContainer (S_ "headers")) hr hc)) = true <-> headers_accept_by (to_lower w) (header_acc w (ctx_for false CHeader rs)) (req_headers e) (req_headers a))).
  { destruct (or_else_nil (req_headers e)) as [|kv l] eqn:Eh.
    - left. split; [reflexivity|]. split; [unfold header_plan; unfold or_else_nil in Eh; destruct (req_headers e) as [[|kv l]|]; [reflexivity | discriminate Eh | reflexivity]|].
      unfold headers_accept_by. rewrite Eh. intros k vs [].
    - right. destruct (header_part w x ee a e (ctx_for false CHeader rs) (eq_ind_r (fun l0 => forall k rs0 r, In k (map fst l0) -> selected_rules (ctx_for false CHeader rs) k = Some rs0 -> In r rs0 -> usable r) Hhu Eh) Hh) as [[ht hr hc] [H1 [H2 H3]]]; [rewrite Eh; discriminate|].
      cbn [pn_type] in H2. subst ht. exists hr, hc. split; [|split; [exact H1 | exact H3]].
      unfold header_plan. unfold or_else_nil in Eh. destruct (req_headers e) as [[|kv' l']|]; [discriminate Eh | | discriminate Eh]. cbn [container pn_children].
      intro E. apply app_eq_nil in E as [_ E]. discriminate E. }
  assert (HB : (req_body e = BMissing) \/ (exists n st' br bc, body_plan w x ee e (ctx_for false CBody rs) = Ok n /\ evals w x ee a [] n st' (PN (PContainer (S_ "body")) br bc) /\ pn_children n <> [] /\
     (v2_body_matched (body_read w (PN (PContainer (S_ "body")) br bc)) = true <-> body_accepts (expected_type w x e) (types_agree w x a e) (json_of_bytes x) (utf8_lossy ee) (req_body e) (req_body a)))).
  { assert (HD : req_body e = BMissing \/ req_body e <> BMissing) by (destruct (req_body e); (now left) || (right; discriminate)). destruct HD as [HD|HD]; [now left|]. right.
    destruct (body_part w x ee a (ctx_for false CBody rs) (no_body_rules_defined rs Hbody) (no_body_rules_best rs Hbody) eq_refl e HD Hb eq_refl) as [n [st' [[bt br bc] [B1 [B2 [B3 [B4 B5]]]]]]].
    cbn [pn_type] in B4. subst bt. exists n, st', br, bc. split; [exact B1|]. split; [exact B2|]. split; [exact B3 | exact B5]. }
  assert (HP3 : pn_children (method_plan w e) <> [] /\ pn_children (path_plan w e (ctx_for false CPath rs)) <> [] /\ pn_children (query_plan w e (ctx_for false CQuery rs)) <> []).
  { split; [discriminate|]. split; [discriminate|]. unfold query_plan. destruct (req_query e) as [[|kv q]|]; [discriminate | | discriminate]. cbn [container pn_children].
    intro E. apply app_eq_nil in E as [_ E]. discriminate E. }
  assert (HA : forall l n, pn_children n <> [] -> plan_add l n = l ++ [n]) by (intros l n H; unfold plan_add; destruct (pn_children n); [congruence | reflexivity]).
  assert (HA0 : forall l n, pn_children n = [] -> plan_add l n = l) by (intros l n H; unfold plan_add; now rewrite H).
  destruct HP3 as [N1 [N2 N3]].
  set (M := method_plan w e) in *. set (P := path_plan w e (ctx_for false CPath rs)) in *. set (Q := query_plan w e (ctx_for false CQuery rs)) in *. set (H := header_plan w e (ctx_for false CHeader rs)) in *.
  assert (E3 : evs w x ee a [] [M; P; Q] [PN (PContainer (S_ "method")) mr mc; PN (PContainer (S_ "path")) pr pc; PN (PContainer (S_ "query parameters")) qr qc]).
  { constructor; [exact M1|]. constructor; [exact P1|]. constructor; [exact A1 | constructor]. }
  assert (HRP : forall n, body_plan w x ee e (ctx_for false CBody rs) = Ok n -> request_plan w x ee e = Ok (container (S_ "request") (plan_add (plan_add [M; P; Q] H) n))).
  { intros n En. unfold request_plan. fold rs. rewrite En. cbn [bind fold_left]. fold M P Q H. rewrite (HA [] M N1), (HA _ P N2), (HA _ Q N3). reflexivity. }
  destruct HB as [Bm|[n [st' [br [bc [B1 [B2 [B3 B4]]]]]]]].
  - assert (B1 : body_plan w x ee e (ctx_for false CBody rs) = Ok (container (S_ "body") [])) by (unfold body_plan; now rewrite Bm).
    specialize (HRP _ B1). rewrite (HA0 _ (container (S_ "body") []) eq_refl) in HRP.
    assert (HB5 : body_accepts (expected_type w x e) (types_agree w x a e) (json_of_bytes x) (utf8_lossy ee) (req_body e) (req_body a)) by (rewrite Bm; exact I).
    destruct HH as [[Eh [Hc Hacc]]|[hr [hc [Hc [H1 H2]]]]].
    + rewrite (HA0 _ H Hc) in HRP.
      eapply (decide w x ee e a _ _ _ _ _ _ _ _ HRP (ev_container w x ee a [] (S_ "request") _ _ E3 ltac:(repeat constructor))); [exact M3 | exact P3 | exact A3 | split; [intros _; exact Hacc | reflexivity] | split; [intros _; exact HB5 | reflexivity]].
    + rewrite (HA _ H Hc) in HRP.
      assert (E4 := evs_app w x ee a [] _ _ _ _ E3 (evs_cons w x ee a [] _ _ _ _ H1 (evs_nil w x ee a []))). cbn [app] in E4.
      eapply (decide w x ee e a _ _ _ _ _ _ _ _ HRP (ev_container w x ee a [] (S_ "request") _ _ E4 ltac:(repeat constructor))); [exact M3 | exact P3 | exact A3 | exact H2 | split; [intros _; exact HB5 | reflexivity]].
  - specialize (HRP _ B1). rewrite (HA _ n B3) in HRP.
    destruct HH as [[Eh [Hc Hacc]]|[hr [hc [Hc [H1 H2]]]]].
    + rewrite (HA0 _ H Hc) in HRP.
      eapply (decide w x ee e a _ _ _ _ _ _ _ _ HRP (ev_container_last w x ee a [] (S_ "request") _ _ _ _ _ E3 ltac:(repeat constructor) B2 eq_refl)); [exact M3 | exact P3 | exact A3 | split; [intros _; exact Hacc | reflexivity] | exact B4].
    + rewrite (HA _ H Hc) in HRP.
      assert (E4 := evs_app w x ee a [] _ _ _ _ E3 (evs_cons w x ee a [] _ _ _ _ H1 (evs_nil w x ee a []))). cbn [app] in E4.
      eapply (decide w x ee e a _ _ _ _ _ _ _ _ HRP (ev_container_last w x ee a [] (S_ "request") _ _ _ _ _ E4 ltac:(repeat constructor) B2 eq_refl)); [exact M3 | exact P3 | exact A3 | exact H2 | exact B4].
Qed.

