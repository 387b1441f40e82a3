(** C107: responses described with the builders of the consumer DSL, and JSON and text bodies. *)
From Coq Require Import Ascii String List Arith NArith ZArith Lia Bool Permutation Sorted.
From Verif Require Import Base PathExp PathExpProofs SpecPath PropPath Json Text TextProofs MatchingRules RulesV2 SpecRules Matchers JsonCompare SpecMatch SpecValues
  CompareProofs CompareProofs2 SpecBody BodyProofs Headers Query ContentType SpecXml SpecQuery SpecHeaders SpecHttp Http QueryProofs PropHttp PropHttp2 PropHeaders Pattern SpecPattern PatternProofs PropPattern PropPattern2
  SpecParams PropParams PropParams2 PropXml Expr Generators SpecGenerators PropGenerators Builder SpecBuilder BuilderProofs BuilderProofs2 BuilderProofs3 BuilderProofs4 PropBuilder.
Import ListNotations.
Open Scope N_scope.
Local Opaque show_N.

Section Built.
Variable w : world.
Variable x : externals.
Notation lower := (to_lower w).
Notation sp := (is_space w).

(** ** Responses *)
Lemma response_part : forall h b, sb_part (fold_left (response_step w x) h b) = fold_left (part_step w x) (response_part_calls h) (sb_part b).
Proof.
  induction h as [|c h IH]; intro b; [reflexivity|]. cbn [fold_left]. rewrite IH. unfold response_part_calls. cbn [flat_map].
  destruct c; [reflexivity|]. cbn [app fold_left]. reflexivity.
Qed.
Lemma status_after : forall h b, sb_status (fold_left (response_step w x) h b) = last (statuses h) (sb_status b).
Proof.
  induction h as [|c h IH]; intro b; [reflexivity|]. cbn [fold_left]. rewrite IH. unfold statuses. cbn [flat_map].
  destruct c; [|reflexivity]. cbn [app]. rewrite last_cons. reflexivity.
Qed.
Lemma no_status_rules : forall e a c, cat_rules c = [] -> (match_status w e a c = [] <-> e = a).
Proof.
  intros e a [n rs] E. cbn [cat_rules] in E. subst rs. unfold match_status. destruct n; cbn; destruct (N.eqb_spec e a); split; congruence.
Qed.
Theorem C107_response : forall h e a ms, built_response w x h e ->
  headers_sane lower (header_calls (response_part_calls h)) -> bodies_sane (response_part_calls h) ->
  part_unique lower (resp_headers a) -> part_readable sp lower (resp_headers e) -> part_readable sp lower (resp_headers a) ->
  match_response w x e a = Ok ms ->
  (ms = [] <->
   resp_status a = last (statuses h) 200 /\
   headers_accepted w (header_calls (response_part_calls h)) (resp_headers a) /\
   match_body w x (resp_part e) (resp_part a) (mkCtx true (rules_for CBody (resp_rules e)))
     (mkCtx false (lowered w (rules_for CHeader (resp_rules e)))) = Ok BodyOk).
Proof.
  intros h e a ms (ES & EH & EB & SH) HS BS U RE RA M.
  destruct (part_content w x (response_part_calls h) no_part BS) as (CH & CB & _ & _ & CS & PL). cbv zeta in *.
  specialize (PL (fun _ _ J => match J with end)).
  assert (EQR : resp_rules (build_response w x h) = pb_rules (fold_left (part_step w x) (response_part_calls h) no_part)).
  { unfold build_response, response_calls. cbn [resp_rules]. rewrite response_part. reflexivity. }
  assert (all_simple (resp_rules (build_response w x h))) as AS by (rewrite EQR; apply parts_simple; [exact BS | intros ? ? ? ? []]).
  rewrite <- EQR in *.
  pose proof (shuffled_ok _ _ PL AS SH) as RP.
  assert (NB : forall n, n <> CBody -> cat_rules (rules_for n (resp_rules e)) <> [] -> cat_name (rules_for n (resp_rules e)) <> CBody).
  { intros n Hn H. destruct (content_in n (resp_rules e) H) as (c & J & ->). rewrite (proj1 (RP n c J)). exact Hn. }
  assert (CT : forall n, Permutation (content n (resp_rules (build_response w x h))) (cat_rules (rules_for n (resp_rules e)))) by (intro n; apply (shuffled_content _ _ n SH)).
  pose proof (C106_response w x e a ms RP M U RE RA) as C. cbv zeta in C. rewrite C. clear C.
  rewrite no_status_rules.
  2:{ specialize (CT CStatus). rewrite CS in CT. apply Permutation_nil. exact CT. }
  assert (resp_status e = last (statuses h) 200) as -> by (rewrite ES; apply status_after).
  assert (last (statuses h) 200 = resp_status a <-> resp_status a = last (statuses h) 200) as -> by (split; congruence).
  assert (part_headers_ok w (lowered w (rules_for CHeader (resp_rules e))) (resp_headers e) (resp_headers a) <-> headers_accepted w (header_calls (response_part_calls h)) (resp_headers a)) as ->; [|reflexivity].
  apply (headers_after w x); try assumption.
  - rewrite EH. unfold build_response, response_calls. cbn [resp_headers]. rewrite response_part. reflexivity.
  - specialize (CT CHeader). rewrite CH in CT. exact CT.
  - apply NB. discriminate.
Qed.

(** ** Bodies *)
Lemma body_given : forall c l, body_given_by c l -> fold_left push_body (body_calls l) [] = push_body [] c /\ last (map (body_of w x) (body_calls l)) BMissing = body_of w x c.
Proof.
  intros c l (bf & E & H). rewrite E. split.
  - rewrite fold_left_app. cbn [fold_left]. f_equal. clear E. induction bf as [|b bf IH]; [reflexivity|]. cbn [fold_left].
    destruct (H b (or_introl eq_refl)) as [(t & ->)|(t & ct & ->)]; (apply IH; intros b' J; apply H; right; exact J).
  - rewrite map_app. cbn [map]. apply last_last.
Qed.
Lemma rules_named : forall n m, placed m -> cat_name (rules_for n m) = n \/ cat_rules (rules_for n m) = [].
Proof.
  intros n m P. destruct (cat_rules (rules_for n m)) as [|r rs] eqn:E; [right; reflexivity|]. left.
  destruct (content_in n m) as (c & J & ->); [unfold content; rewrite E; discriminate|]. apply P, J.
Qed.
(** JSON: exactly the documents the pattern accepts (C91). *)
Lemma json_body_iff : forall p e a c hc extra ab act ah ja, proper p -> untied p -> (depth p <= 57)%nat ->
  part_body e = body_of w x (PJsonBody p) -> part_body a = BPresent ab act ah ->
  json_type (content_type_of x (S_ "application/json")) -> part_content_type w x a = content_type_of x (S_ "application/json") ->
  json_of_bytes x (utf8 (json_show w (to_example p))) = Some (to_example p) -> json_of_bytes x ab = Some ja -> json_wf ja -> fits ja ->
  Permutation (push_steps path_root [] (rel p)) (cat_rules c) -> (cat_name c = CBody \/ cat_rules c = []) ->
  (match_body w x e a (mkCtx extra c) hc = Ok BodyOk <-> means w extra false p ja).
Proof.
  intros p e a c hc extra ab act ah ja Pr Un De Be Ba JT CT Je Ja Wa Fa P N. cbn [body_of] in Be.
  assert (part_content_type w x e = content_type_of x (S_ "application/json")) as CTe by (unfold part_content_type; rewrite Be; reflexivity).
  unfold match_body. rewrite CT, CTe, compatible_same. unfold match_body_content. rewrite Be, Ba.
  unfold compare_bodies, compare_bodies_core. apply C52_json_types in JT. rewrite JT. cbn [bind].
  unfold match_json, body_bytes. rewrite Be, Ba. cbn [body_value]. rewrite Je, Ja, body_ok_iff.
  assert (cat_rules (body_rules_of p) = push_steps path_root [] (rel p)) as E by (unfold body_rules_of; rewrite (extract_rel p Pr), add_all_rules; reflexivity).
  destruct N as [N|N].
  - apply C91_pattern_accepts_exactly; try assumption. split; [exact N|]. rewrite E. exact P.
  - rewrite N in P. apply Permutation_sym, Permutation_nil in P.
    assert (C : cat_rules c = cat_rules (cat_empty CBody)) by exact N.
    assert (rules_of_pattern p (cat_empty CBody)) as R by (split; [reflexivity|]; rewrite E, P; apply Permutation_refl).
    rewrite <- (C91_pattern_accepts_exactly w extra p _ ja Pr Un De R Wa Fa).
    rewrite (compare_no_rules w (mkCtx extra c)), (compare_no_rules w (mkCtx extra (cat_empty CBody))); try assumption; try reflexivity; apply example_wf, Pr.
Qed.
(** The body of a request: its rules and bytes. *)
Lemma request_body : forall h e c, built_request w x h e -> bodies_sane (part_calls h) -> body_given_by c (part_calls h) ->
  req_body e = body_of w x c /\ Permutation (push_body [] c) (cat_rules (rules_for CBody (req_rules e))) /\
  (cat_name (rules_for CBody (req_rules e)) = CBody \/ cat_rules (rules_for CBody (req_rules e)) = []).
Proof.
  intros h e c (_ & _ & _ & _ & EB & SH) BS G. destruct (body_given c _ G) as [G1 G2].
  destruct (request_content w x h request_start BS) as (_ & CB & _ & _ & PL). cbv zeta in *. specialize (PL (fun _ _ J => match J with end)).
  destruct (shuffled_content _ _ CBody SH) as [P N]. split; [|split].
  - rewrite EB. change (req_body (build_request w x h)) with (pb_body (rb_part (fold_left (request_step w x) h request_start))).
    destruct (request_part w x h request_start no_part eq_refl eq_refl) as [_ ->]. rewrite body_after. exact G2.
  - change (content CBody (req_rules (build_request w x h))) with (content CBody (pb_rules (rb_part (fold_left (request_step w x) h request_start)))) in P.
    rewrite CB in P. change (content CBody (pb_rules (rb_part request_start))) with (@nil (docpath * rulelist)) in P. rewrite G1 in P. exact P.
  - rewrite <- N. destruct (rules_named CBody (req_rules (build_request w x h)) PL) as [H|H]; [left; exact H|]. right.
    unfold content in P. rewrite H in P. apply Permutation_nil, P.
Qed.
Lemma response_body : forall h e c, built_response w x h e -> bodies_sane (response_part_calls h) -> body_given_by c (response_part_calls h) ->
  resp_body e = body_of w x c /\ Permutation (push_body [] c) (cat_rules (rules_for CBody (resp_rules e))) /\
  (cat_name (rules_for CBody (resp_rules e)) = CBody \/ cat_rules (rules_for CBody (resp_rules e)) = []).
Proof.
  intros h e c (_ & _ & EB & SH) BS G. destruct (body_given c _ G) as [G1 G2].
  destruct (part_content w x (response_part_calls h) no_part BS) as (_ & CB & _ & _ & _ & PL). cbv zeta in *. specialize (PL (fun _ _ J => match J with end)).
  assert (EQR : build_response w x h = let b := fold_left (part_step w x) (response_part_calls h) no_part in
    mkResp (resp_status (build_response w x h)) (pb_headers b) (pb_body b) (pb_rules b)).
  { unfold build_response, response_calls. cbv zeta. rewrite response_part. reflexivity. }
  rewrite EQR in EB, SH. cbn [resp_body resp_rules] in EB, SH.
  destruct (shuffled_content _ _ CBody SH) as [P N]. split; [|split].
  - rewrite EB, body_after. exact G2.
  - rewrite CB in P. change (content CBody (pb_rules no_part)) with (@nil (docpath * rulelist)) in P. rewrite G1 in P. exact P.
  - rewrite <- N. destruct (rules_named CBody _ PL) as [H|H]; [left; exact H|]. right.
    unfold content in P. rewrite H in P. apply Permutation_nil, P.
Qed.
(** A request described with a JSON pattern as its body. *)
Theorem C107_json_request : forall h e a r p ab act ah ja, built_request w x h e ->
  params_sane h -> headers_sane lower (header_calls (part_calls h)) ->
  body_given_by (PJsonBody p) (part_calls h) -> proper p -> untied p -> (depth p <= 57)%nat ->
  one_entry_each (req_query a) -> part_unique lower (req_headers a) ->
  part_readable sp lower (req_headers e) -> part_readable sp lower (req_headers a) ->
  json_type (content_type_of x (S_ "application/json")) -> json_of_bytes x (utf8 (json_show w (to_example p))) = Some (to_example p) ->
  req_body a = BPresent ab act ah -> part_content_type w x (req_part a) = content_type_of x (S_ "application/json") ->
  json_of_bytes x ab = Some ja -> json_wf ja -> fits ja ->
  match_request w x e a = Ok r ->
  (all_matched r = true <->
   lower (last (methods h) (S_ "GET")) = lower (req_method a) /\
   path_accepted w (paths h) (req_path a) /\
   query_accepted w h (req_query a) /\
   headers_accepted w (header_calls (part_calls h)) (req_headers a) /\
   means w false false p ja).
Proof.
  intros h e a r p ab act ah ja B PS HS G Pr Un De QA U RE RA JT Je Ba CT Ja Wa Fa M.
  assert (bodies_sane (part_calls h)) as BS.
  { destruct G as (bf & E & H). intros q J. assert (In (PJsonBody q) (body_calls (part_calls h))) as K by (apply filter_In; split; [exact J | reflexivity]).
    rewrite E in K. apply in_app_or in K as [K|[K|[]]]; [|injection K as <-; exact Pr]. destruct (H _ K) as [(t & Z)|(t & ct & Z)]; discriminate. }
  destruct (request_body h e _ B BS G) as (Eb & P & N).
  rewrite (C107_request w x h e a r B PS HS BS QA U RE RA M).
  rewrite (json_body_iff p (req_part e) (req_part a) _ _ false ab act ah ja Pr Un De Eb Ba JT CT Je Ja Wa Fa P N). reflexivity.
Qed.
Theorem C107_json_response : forall h e a ms p ab act ah ja, built_response w x h e ->
  headers_sane lower (header_calls (response_part_calls h)) ->
  body_given_by (PJsonBody p) (response_part_calls h) -> proper p -> untied p -> (depth p <= 57)%nat ->
  part_unique lower (resp_headers a) -> part_readable sp lower (resp_headers e) -> part_readable sp lower (resp_headers a) ->
  json_type (content_type_of x (S_ "application/json")) -> json_of_bytes x (utf8 (json_show w (to_example p))) = Some (to_example p) ->
  resp_body a = BPresent ab act ah -> part_content_type w x (resp_part a) = content_type_of x (S_ "application/json") ->
  json_of_bytes x ab = Some ja -> json_wf ja -> fits ja ->
  match_response w x e a = Ok ms ->
  (ms = [] <->
   resp_status a = last (statuses h) 200 /\
   headers_accepted w (header_calls (response_part_calls h)) (resp_headers a) /\
   means w true false p ja).
Proof.
  intros h e a ms p ab act ah ja B HS G Pr Un De U RE RA JT Je Ba CT Ja Wa Fa M.
  assert (bodies_sane (response_part_calls h)) as BS.
  { destruct G as (bf & E & H). intros q J. assert (In (PJsonBody q) (body_calls (response_part_calls h))) as K by (apply filter_In; split; [exact J | reflexivity]).
    rewrite E in K. apply in_app_or in K as [K|[K|[]]]; [|injection K as <-; exact Pr]. destruct (H _ K) as [(t & Z)|(t & ct & Z)]; discriminate. }
  destruct (response_body h e _ B BS G) as (Eb & P & N).
  rewrite (C107_response h e a ms B HS BS U RE RA M).
  rewrite (json_body_iff p (resp_part e) (resp_part a) _ _ true ab act ah ja Pr Un De Eb Ba JT CT Je Ja Wa Fa P N). reflexivity.
Qed.

Lemma push_root : forall rs, push_rules path_root [] rs = match rs with [] => [] | _ => [(path_root, mkRules rs And false)] end.
Proof.
  assert (forall rs rs0, rs0 <> [] -> push_rules path_root [(path_root, mkRules rs0 And false)] rs = [(path_root, mkRules (rs0 ++ rs) And false)]) as H1.
  { intros rs. induction rs as [|r rs IH]; intros rs0 NE; [rewrite app_nil_r; reflexivity|]. cbn [push_rules fold_left hm_push].
    change (path_eqb path_root path_root) with true. cbn [rl_rules rl_logic rl_cascaded]. fold (push_rules path_root [(path_root, mkRules (rs0 ++ [r]) And false)] rs).
    rewrite IH, <- app_assoc; [reflexivity | destruct rs0; discriminate]. }
  intros [|r rs]; [reflexivity|]. cbn [push_rules fold_left hm_push]. fold (push_rules path_root [(path_root, mkRules [r] And false)] rs).
  rewrite H1; [reflexivity | discriminate].
Qed.
Lemma text_body_iff : forall p e a c hc extra ab act ah y,
  forallb scalar (s_example p) = true ->
  part_body e = body_of w x (PBodyMatching p) -> part_body a = BPresent ab act ah ->
  other_type x (content_type_of x (S_ "text/plain")) -> main_type (content_type_of x (S_ "text/plain")) = S_ "text" ->
  parse_mime x (S_ "application/octet-stream") <> Some (base_type (content_type_of x (S_ "text/plain"))) ->
  part_content_type w x a = content_type_of x (S_ "text/plain") -> from_utf8 ab = Some y ->
  Permutation (push_rules path_root [] (s_rules p)) (cat_rules c) -> (cat_name c = CBody \/ cat_rules c = []) ->
  (match_body w x e a (mkCtx extra c) hc = Ok BodyOk <-> text_accepted w p y).
Proof.
  intros p e a c hc extra ab act ah y Sc Be Ba OT T NB CT Ua P N. cbn [body_of] in Be.
  assert (part_content_type w x e = content_type_of x (S_ "text/plain")) as CTe by (unfold part_content_type; rewrite Be; reflexivity).
  pose proof (from_utf8_utf8 _ Sc) as Ue. rewrite push_root in P. unfold text_accepted. rewrite has_rule_iff. rewrite <- CTe in OT, T, NB, CT.
  destruct (s_rules p) as [|r rs] eqn:Er.
  - apply Permutation_nil in P.
    rewrite (C51_same_bytes w x e a (mkCtx extra c) hc _ _ _ ab act ah P Be Ba OT CT). split.
    + intros <-. right. split; [tauto|]. rewrite Ue in Ua. injection Ua as <-. reflexivity.
    + intros [[Z _]|[_ ->]]; [congruence|]. symmetry. apply (proj1 (from_utf8_inv _ _ Ua)).
  - apply Permutation_length_1_inv in P.
    assert (only_rule (mkCtx extra c) path_root (mkRules (r :: rs) And false)) as O.
    { split; [|exact P]. destruct N as [N|N]; [exact N | rewrite N in P; discriminate]. }
    rewrite (C51_text_rule w x e a (mkCtx extra c) hc (utf8 (s_example p)) (Some (content_type_of x (S_ "text/plain"))) None ab act ah (mkRules (r :: rs) And false) (s_example p) y O); try assumption; try discriminate.
    + cbn [rl_logic rl_rules combined]. split.
      * intro H. left. split; [discriminate|]. apply (asks_iff w p y (s_example p) false). intros r0 J. rewrite Er in J. apply xtext_iff, H, J.
      * intros [[_ H]|[Z _]]; [|exfalso; apply Z; discriminate]. intros r0 J. rewrite <- Er in J. apply xtext_iff. exact (proj1 (asks_iff w p y (s_example p) false) H r0 J).
    + cbn [rl_rules]. rewrite <- Er. apply not_true_is_false. intro Z. apply existsb_exists in Z as (r0 & J & K). apply s_rules_simple in J. destruct r0; cbn in *; try discriminate; contradiction.
Qed.
(** A request or a response described with a text pattern as its body. *)
Lemma text_sane : forall p l, body_given_by (PBodyMatching p) l -> bodies_sane l.
Proof.
  intros p l (bf & E & H) q J. assert (In (PJsonBody q) (body_calls l)) as K by (apply filter_In; split; [exact J | reflexivity]).
  rewrite E in K. apply in_app_or in K as [K|[K|[]]]; [|discriminate]. destruct (H _ K) as [(t & Z)|(t & ct & Z)]; discriminate.
Qed.
Theorem C107_text_request : forall h e a r p ab act ah y, built_request w x h e ->
  params_sane h -> headers_sane lower (header_calls (part_calls h)) ->
  body_given_by (PBodyMatching p) (part_calls h) -> forallb scalar (s_example p) = true ->
  one_entry_each (req_query a) -> part_unique lower (req_headers a) ->
  part_readable sp lower (req_headers e) -> part_readable sp lower (req_headers a) ->
  plain_text x (content_type_of x (S_ "text/plain")) ->
  req_body a = BPresent ab act ah -> part_content_type w x (req_part a) = content_type_of x (S_ "text/plain") -> from_utf8 ab = Some y ->
  match_request w x e a = Ok r ->
  (all_matched r = true <->
   lower (last (methods h) (S_ "GET")) = lower (req_method a) /\
   path_accepted w (paths h) (req_path a) /\
   query_accepted w h (req_query a) /\
   headers_accepted w (header_calls (part_calls h)) (req_headers a) /\
   text_accepted w p y).
Proof.
  intros h e a r p ab act ah y B PS HS G Sc QA U RE RA (OT & T & NB) Ba CT Ua M. pose proof (text_sane p _ G) as BS.
  destruct (request_body h e _ B BS G) as (Eb & P & N).
  rewrite (C107_request w x h e a r B PS HS BS QA U RE RA M).
  rewrite (text_body_iff p (req_part e) (req_part a) _ _ false ab act ah y Sc Eb Ba OT T NB CT Ua P N). reflexivity.
Qed.
Theorem C107_text_response : forall h e a ms p ab act ah y, built_response w x h e ->
  headers_sane lower (header_calls (response_part_calls h)) ->
  body_given_by (PBodyMatching p) (response_part_calls h) -> forallb scalar (s_example p) = true ->
  part_unique lower (resp_headers a) -> part_readable sp lower (resp_headers e) -> part_readable sp lower (resp_headers a) ->
  plain_text x (content_type_of x (S_ "text/plain")) ->
  resp_body a = BPresent ab act ah -> part_content_type w x (resp_part a) = content_type_of x (S_ "text/plain") -> from_utf8 ab = Some y ->
  match_response w x e a = Ok ms ->
  (ms = [] <->
   resp_status a = last (statuses h) 200 /\
   headers_accepted w (header_calls (response_part_calls h)) (resp_headers a) /\
   text_accepted w p y).
Proof.
  intros h e a ms p ab act ah y B HS G Sc U RE RA (OT & T & NB) Ba CT Ua M. pose proof (text_sane p _ G) as BS.
  destruct (response_body h e _ B BS G) as (Eb & P & N).
  rewrite (C107_response h e a ms B HS BS U RE RA M).
  rewrite (text_body_iff p (resp_part e) (resp_part a) _ _ true ab act ah y Sc Eb Ba OT T NB CT Ua P N). reflexivity.
Qed.

(** ** Generators *)
Definition keyed (g : generators) : Prop := forall c p v, has_generator g c p v -> exists t, p = from_tokens t.
Lemma same_text : forall t u, path_expr (from_tokens t) = path_expr (from_tokens u) -> t = u.
Proof. intros t u E. apply path_eqb_tokens. unfold path_eqb. rewrite E. apply str_eqb_eq. reflexivity. Qed.
Lemma add_keyed : forall g c t v, generators_wf g -> keyed g -> in_range v ->
  let g' := add_generator_at c (from_tokens t) v g in
  generators_wf g' /\ keyed g' /\
  forall c' p' v', has_generator g' c' p' v' <-> (c' = c /\ p' = from_tokens t /\ v' = v) \/ (~ (c' = c /\ p' = from_tokens t) /\ has_generator g c' p' v').
Proof.
  intros g c t v W K R g'. destruct (C70_adding_replaces g c (from_tokens t) v W R) as (W' & (q & Eq & Hq) & Oth). fold g' in W', Hq, Oth.
  assert (K' : keyed g').
  { intros c' p' v' (m & I & J). apply (cats_update_in _ g c c' m (proj1 W)) in I. destruct I as [[_ I]|(-> & m0 & -> & I)]; [apply (K c' p' v'); exists m; auto|].
    destruct (hm_insert_entries m0 _ _ _ _ J) as [[-> _]|[[_ [z Hz]]|Hz]]; [exists t; reflexivity | |].
    - destruct I as [I|[-> _]]; [apply (K c p' z); exists m0; auto | destruct Hz].
    - destruct I as [I|[-> _]]; [apply (K c p' v'); exists m0; auto | destruct Hz]. }
  split; [exact W'|]. split; [exact K'|]. intros c' p' v'.
  destruct (K' _ _ _ Hq) as [u ->]. apply same_text in Eq. subst u.
  assert (D : (c' = c /\ p' = from_tokens t) \/ ~ (c' = c /\ p' = from_tokens t)).
  { destruct (gcat_eqb_spec c' c); [|tauto]. assert ({p' = from_tokens t} + {p' <> from_tokens t}) as [?|?] by (repeat decide equality); tauto. }
  destruct D as [[-> ->]|D].
  - split.
    + intro H. left. split; [reflexivity|]. split; [reflexivity|]. destruct H as (m & I & J). destruct Hq as (m2 & I2 & J2).
      rewrite <- (nodup_cats g' c m m2 (proj1 W') I I2) in J2. destruct W' as [_ F]. rewrite Forall_forall in F. destruct (F _ I) as [ND _]. cbn [snd] in ND.
      clear -ND J J2. induction m as [|[k z] m IH]; [destruct J|]. cbn [map fst] in ND. inversion ND as [|? ? N1 N2]; subst. destruct J as [J|J], J2 as [J2|J2].
      * congruence.
      * injection J as -> ->. exfalso. apply N1. apply (in_map (fun px => path_expr (fst px))) in J2. exact J2.
      * injection J2 as -> ->. exfalso. apply N1. apply (in_map (fun px => path_expr (fst px))) in J. exact J.
      * apply IH; assumption.
    + intros [(_ & _ & ->)|[Z _]]; [exact Hq | exfalso; apply Z; split; reflexivity].
  - assert (N : (exists u, p' = from_tokens u) -> c' <> c \/ path_expr p' <> path_expr (from_tokens t)).
    { intros [u ->]. destruct (gcat_eqb_spec c' c) as [->|Nc]; [|left; exact Nc]. right. intro E. apply same_text in E. subst u. apply D. split; reflexivity. }
    split.
    + intro H. right. split; [exact D|]. apply (Oth c' p' v'); [apply N, (K' _ _ _ H) | exact H].
    + intros [(-> & -> & _)|[_ H]]; [exfalso; apply D; split; reflexivity|]. apply (Oth c' p' v'); [apply N, (K _ _ _ H) | exact H].
Qed.
Lemma last_of_snoc : forall A (l : list A) v, last_of (l ++ [v]) = Some v.
Proof. intros A l v. unfold last_of. rewrite map_app. apply last_last. Qed.
Definition state_value (e : str) : generator := GProviderState e (Some DString).
Definition from_headers (l : list part_call) (c : gcat) (p : docpath) (v : generator) : Prop :=
  c = GcHeader /\ exists n e, p = push_field path_root n /\ last_of (header_expressions l n) = Some e /\ v = state_value e.
Definition from_path (h : list request_call) (c : gcat) (p : docpath) (v : generator) : Prop :=
  c = GcPath /\ p = path_empty /\ exists e, last_of (path_expressions h) = Some e /\ v = state_value e.
Lemma gens_step : forall pc b, pb_generators (part_step w x b pc) =
  match pc with PHeaderFromState n e _ => add_generator_at GcHeader (from_tokens [TRoot; TField n]) (state_value e) (pb_generators b) | _ => pb_generators b end.
Proof. intros pc b. destruct pc; cbn; try reflexivity. rewrite <- named_tokens. reflexivity. Qed.
Lemma header_snoc : forall l pc c p v, from_headers (l ++ [pc]) c p v <->
  match pc with
  | PHeaderFromState n e _ => (c = GcHeader /\ p = from_tokens [TRoot; TField n] /\ v = state_value e) \/ (~ (c = GcHeader /\ p = from_tokens [TRoot; TField n]) /\ from_headers l c p v)
  | _ => from_headers l c p v
  end.
Proof.
  intros l pc c p v. unfold from_headers, header_expressions. setoid_rewrite flat_map_app. cbn [flat_map].
  destruct pc; setoid_rewrite app_nil_r; try reflexivity.
  rewrite <- (named_tokens name). split.
  - intros (-> & n & e & -> & L & ->). destruct (str_eqb_spec name n) as [<-|NE].
    + rewrite last_of_snoc in L. injection L as <-. left. auto.
    + right. rewrite app_nil_r in L. split; [|split; [reflexivity|]; exists n, e; auto].
      intros [_ E]. change (push_field path_root n) with (named_path n) in E. rewrite !named_tokens in E. apply from_tokens_inj in E. congruence.
  - intros [(-> & -> & ->)|(D & -> & n & e & -> & L & ->)]; (split; [reflexivity|]).
    + exists name, expression. split; [reflexivity|]. destruct (str_eqb_spec name name) as [_|Z]; [|congruence]. rewrite last_of_snoc. auto.
    + exists n, e. split; [reflexivity|]. split; [|reflexivity]. destruct (str_eqb_spec name n) as [->|NE]; [exfalso; apply D; split; reflexivity|]. rewrite app_nil_r. exact L.
Qed.
Lemma empty_tokens : path_empty = from_tokens [].
Proof. reflexivity. Qed.
(** The generators of the request: the last expression given for the path, and for each header the last one given for it. *)
Theorem C107_request_generators : forall h c p v,
  has_generator (pb_generators (rb_part (request_calls w x h))) c p v <->
  (c = GcPath /\ p = path_empty /\ exists e, last_of (path_expressions h) = Some e /\ v = GProviderState e (Some DString)) \/
  (c = GcHeader /\ exists n e, p = push_field path_root n /\ last_of (header_expressions (part_calls h) n) = Some e /\ v = GProviderState e (Some DString)).
Proof.
  intros h. set (g := fun h => pb_generators (rb_part (request_calls w x h))).
  enough (generators_wf (g h) /\ keyed (g h) /\ forall c p v, has_generator (g h) c p v <-> from_path h c p v \/ from_headers (part_calls h) c p v) as (_ & _ & X) by exact X.
  induction h as [|rc h IH] using rev_ind.
  { split; [split; constructor|]. split; [intros c p v (m & [] & _)|]. intros c p v. split; [intros (m & [] & _)|]. intros [(_ & _ & e & Z & _)|(_ & n & e & _ & Z & _)]; discriminate. }
  destruct IH as (W & K & H).
  assert (G : g (h ++ [rc]) = match rc with
    | RPathFromState e _ => add_generator_at GcPath (from_tokens []) (state_value e) (g h)
    | RPart (PHeaderFromState n e _) => add_generator_at GcHeader (from_tokens [TRoot; TField n]) (state_value e) (g h)
    | _ => g h end).
  { unfold g, request_calls. rewrite fold_left_app. cbn [fold_left]. destruct rc as [m|q|e q|n q|pc]; try reflexivity. cbn [request_step rb_part]. rewrite gens_step. reflexivity. }
  assert (PC : part_calls (h ++ [rc]) = match rc with RPart pc => part_calls h ++ [pc] | _ => part_calls h end).
  { unfold part_calls. rewrite flat_map_app. cbn [flat_map]. destruct rc; rewrite ?app_nil_r; reflexivity. }
  assert (PE : forall c p v, from_path (h ++ [rc]) c p v <-> match rc with
     | RPathFromState e _ => c = GcPath /\ p = from_tokens [] /\ v = state_value e | _ => from_path h c p v end).
  { intros c p v. unfold from_path, path_expressions. rewrite flat_map_app. cbn [flat_map]. rewrite empty_tokens. destruct rc; rewrite ?app_nil_r; try reflexivity.
    setoid_rewrite last_of_snoc. split; [intros (-> & -> & e & Z & ->); injection Z as <-; auto | intros (-> & -> & ->); split; [reflexivity|]; split; [reflexivity|]; eexists; split; reflexivity]. }
  setoid_rewrite PE. rewrite G, PC.
  destruct rc as [m|q|e q|n q|pc]; try (split; [exact W|]; split; [exact K | exact H]).
  - destruct (add_keyed (g h) GcPath [] (state_value e) W K I) as (W' & K' & H'). split; [exact W'|]. split; [exact K'|].
    intros c p v. rewrite H', H. rewrite <- empty_tokens. split.
    + intros [Z|[D [Z|Z]]]; [left; exact Z | destruct Z as (-> & -> & _); exfalso; apply D; split; reflexivity | right; exact Z].
    + intros [Z|Z]; [left; exact Z|]. right. split; [intros [-> _]; destruct Z as [Z _]; discriminate | right; exact Z].
  - destruct pc as [n v0|n e v0|t|t ct|q|q|q ct]; try (setoid_rewrite header_snoc; split; [exact W|]; split; [exact K | exact H]).
    destruct (add_keyed (g h) GcHeader [TRoot; TField n] (state_value e) W K I) as (W' & K' & H'). split; [exact W'|]. split; [exact K'|].
    intros c p v. rewrite H', H, header_snoc. split.
    + intros [Z|[D [Z|Z]]]; [right; left; exact Z | left; exact Z | right; right; auto].
    + intros [Z|[Z|[D Z]]]; [|left; exact Z | right; auto]. right. split; [|left; exact Z]. intros [-> _]. destruct Z as [Z _]. discriminate.
Qed.
Theorem C107_response_generators : forall h c p v,
  has_generator (pb_generators (sb_part (response_calls w x h))) c p v <->
  (c = GcHeader /\ exists n e, p = push_field path_root n /\ last_of (header_expressions (response_part_calls h) n) = Some e /\ v = GProviderState e (Some DString)).
Proof.
  intros h. unfold response_calls. rewrite response_part. cbn [response_start sb_part].
  set (g := fun l => pb_generators (fold_left (part_step w x) l no_part)). generalize (response_part_calls h) as l. intro l.
  enough (generators_wf (g l) /\ keyed (g l) /\ forall c p v, has_generator (g l) c p v <-> from_headers l c p v) as (_ & _ & X) by exact X.
  induction l as [|pc l IH] using rev_ind.
  { split; [split; constructor|]. split; [intros c p v (m & [] & _)|]. intros c p v. split; [intros (m & [] & _)|]. intros (_ & n & e & _ & Z & _); discriminate. }
  destruct IH as (W & K & H).
  assert (G : g (l ++ [pc]) = match pc with PHeaderFromState n e _ => add_generator_at GcHeader (from_tokens [TRoot; TField n]) (state_value e) (g l) | _ => g l end).
  { unfold g. rewrite fold_left_app. cbn [fold_left]. apply gens_step. }
  rewrite G. destruct pc as [n v0|n e v0|t|t ct|q|q|q ct]; try (setoid_rewrite header_snoc; split; [exact W|]; split; [exact K | exact H]).
  destruct (add_keyed (g l) GcHeader [TRoot; TField n] (state_value e) W K I) as (W' & K' & H'). split; [exact W'|]. split; [exact K'|].
  intros c p v. rewrite H', H, header_snoc. reflexivity.
Qed.
End Built.
