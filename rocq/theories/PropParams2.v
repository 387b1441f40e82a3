(** Property C106 (continued): forms, whole requests and responses, the rules of pact files, examples. *)
From Coq Require Import Ascii String List Arith NArith ZArith Lia Bool Permutation.
From Verif Require Import Base PathExp SpecPath PropPath Json Text TextProofs MatchingRules SpecRules RulesProofs PropRules
  Matchers JsonCompare SpecMatch CompareProofs CompareProofs2 CompareProofs3 PropMatch SpecValues PropValues SpecBody BodyProofs PropBody
  Headers Query ContentType SpecXml PropXml SpecQuery QueryProofs SpecHeaders HeaderProofs HeaderProofs2 PropHeaders Http SpecHttp PropHttp PropHttp2 SpecParams PropParams.
Import ListNotations.
Open Scope N_scope.
Local Opaque show_N.

(** ** The rules of pact files *)
Lemma read_all_ok : forall w v m, matchers_from_json w v = Ok m -> all_ok m.
Proof.
  intros w v m F. unfold matchers_from_json in F. destruct v as [[| | | | |o]|]; try (injection F as <-; constructor).
  destruct (starts_with _ _).
  - revert F. apply (foldM_inv _ _ _ all_ok); [|constructor]. intros b [key x] b' Pb E. unfold load_v2_entry in E.
    repeat match type of E with
    | (if ?b then _ else _) = _ => destruct b
    | bind ?o _ = _ => unfold bind in E at 1; let P := fresh "P" in destruct o eqn:P; try discriminate E
    | match field_names ?p with _ => _ end = _ => destruct (field_names p) as [|? [|? ?]]; try discriminate E
    end; try (eapply v2_ok; eassumption).
  - revert F. apply (foldM_inv _ _ _ all_ok); [|constructor]. intros b [key x] b' Pb E. revert E. apply update_ok; [|exact Pb].
    intros c0 c' H E. eapply add_v3_ok; [|exact H|exact E]. intros j r0. apply fuel_ok.
Qed.
Theorem C106_rules_of_pact_files : forall w v rs, matchers_from_json w v = Ok rs -> rules_in_place rs.
Proof.
  intros w v rs F n m J. apply read_all_ok in F. unfold all_ok in F. rewrite Forall_forall in F. destruct (F _ J) as [N R]. cbn [fst snd] in *.
  split; [exact N|]. intros e vs Ie Ir. specialize (R e _ Ie Ir). inversion R as [? L|? Bh H| |]; subst; [contradiction | exact Bh].
Qed.
Lemma rules_for_ok : forall rs n, rules_in_place rs -> (n = CQuery \/ n = CHeader \/ n = CBody) ->
  searched (rules_for n rs) /\ body_variants (rules_for n rs).
Proof.
  intros rs n R Hn. assert (In (n, rules_for n rs) rs \/ rules_for n rs = cat_empty CBody) as [J|E].
  { clear R Hn. induction rs as [|[n' c] rs IH]; [right; reflexivity|]. cbn [rules_for]. destruct (cat_eqb n n') eqn:Q.
    - assert (n = n') as -> by (destruct n, n'; try discriminate; reflexivity). left. left. reflexivity.
    - destruct IH as [J|E]; [left; right; exact J | right; exact E]. }
  - destruct (R _ _ J) as [N B]. split; [|exact B]. unfold searched. rewrite N. exact Hn.
  - rewrite E. split; [right; right; reflexivity | intros e vs []].
Qed.

(** ** Forms *)
Section Forms.
Variables (w : world) (x : externals).
Lemma form_params_of : forall l k, params_of (Some (group_pairs l [])) k = form_params l k.
Proof.
  intros l k. unfold params_of, form_params. rewrite (entry_get _ k (group_pairs l [])), group_pairs_get. cbn [obj_get app].
  change (map snd (filter (fun kv => str_eqb (fst kv) k) l)) with (field_values k l).
  destruct (field_values k l) as [|v vs]; [reflexivity|]. rewrite map_map. f_equal. apply map_id.
Qed.
Theorem C106_forms : forall c e a eb et eh ef af, searched (matchers c) -> body_variants (matchers c) ->
  e = BPresent eb et eh -> form_of_bytes x eb = Some ef -> form_of_bytes x (body_bytes a) = Some af ->
  (match_form_urlencoded w x e a c = [] <-> form_ok w (matchers c) ef af).
Proof.
  intros c e a eb et eh ef af SM BV -> Fe Fa. unfold match_form_urlencoded. rewrite Fe, Fa.
  assert (forall r : list (str * list mismatch),
    flat_map (fun kv => map (fun m => mkMM (S_ "$." ++ mm_path m) (mm_kind m)) (snd kv)) r = [] <-> matched r) as FM2.
  { intro r. rewrite <- flat_matched. induction r as [|[k l] r IH]; [tauto|]. cbn [flat_map snd]. split; intro H;
      apply app_eq_nil in H as [H1 H2]; apply IH in H2; rewrite H2; [apply map_eq_nil in H1|]; rewrite H1; reflexivity. }
  rewrite FM2. pose proof (C106_query w c SM BV (Some (group_pairs ef [])) (Some (group_pairs af []))
    (group_pairs_nodup ef [] (NoDup_nil _)) (group_pairs_nodup af [] (NoDup_nil _))) as Q. cbn [match_query] in Q. rewrite Q.
  unfold query_ok, form_ok. split; intros [H1 H2]; split; intros k; specialize (H1 k); specialize (H2 k); rewrite !form_params_of in *; assumption.
Qed.
End Forms.

(** ** Requests and responses *)
Section Whole.
Variables (w : world) (x : externals).
Notation lower := (to_lower w).
Notation sp := (is_space w).
Lemma path_iff : forall m e a, cat_rules m = [] \/ cat_name m = CPath -> (match_path w e a (mkCtx false m) = [] <-> path_ok w m e a).
Proof.
  intros m e a H. unfold match_path, path_ok, ctx_matcher_is_defined, ctx_select_best. cbn [matchers].
  assert (cat_rules m = [] -> matcher_is_defined m (to_vec path_empty) = false) as U.
  { intro E. unfold matcher_is_defined, resolve_matchers_for_path, cat_is_empty, cat_filter. destruct (cat_name m); cbn [cat_rules]; rewrite E; reflexivity. }
  destruct (cat_rules m) as [|[q rl] rest] eqn:R.
  - rewrite (U eq_refl). cbn [str_matches]. destruct (str_eqb_spec e a) as [->|N].
    + split; [intros _; left; auto | reflexivity].
    + split; [discriminate|]. intros [[_ E]|(q & rl & rest & E & _)]; [contradiction | discriminate].
  - destruct H as [H|H]; [discriminate|].
    assert (matcher_is_defined m (to_vec path_empty) = true) as ->.
    { unfold matcher_is_defined, resolve_matchers_for_path, cat_is_empty. rewrite H, R. reflexivity. }
    assert (select_best_matcher m (to_vec path_empty) = rl) as ->.
    { unfold select_best_matcher, resolve_matchers_for_path, as_rule_list. rewrite H, R. reflexivity. }
    rewrite match_values_iff, (combined_ext (rl_logic rl) (rl_rules rl) _ (fun r => xtext_satisfies w r (rl_cascaded rl) e a) (fun r => xtext_iff w r (rl_cascaded rl) e a)).
    split.
    + intros [NE C]. right. exists q, rl, rest. auto.
    + intros [[E _]|(q' & rl' & rest' & E & NE & C)]; [discriminate|]. injection E as <- <- <-. auto.
Qed.
Lemma headers_part_iff : forall c E A, searched (matchers c) -> body_variants (matchers c) ->
  part_unique lower A -> part_readable sp lower E -> part_readable sp lower A ->
  (matched (match_headers w E A c) <-> part_headers_ok w (matchers c) E A).
Proof.
  intros c [E|] [A|] SM BV U RE RA; cbn [part_headers_ok part_unique part_readable] in *.
  - apply C106_headers; assumption.
  - apply (C21_missing_header_maps w E None c).
  - split; [trivial|]. intros _. apply (C21_missing_header_maps w [] (Some A) c).
  - split; [trivial|]. intros _. apply (C21_missing_header_maps w [] None c).
Qed.
Lemma lowered_variants : forall m, body_variants m -> body_variants (lowered w m).
Proof.
  intros m B e vs Ie Ir. apply lowered_rules in Ie as (e' & Ie & E). rewrite E in Ir. exact (B e' vs Ie Ir).
Qed.
Lemma path_placed : forall rs, rules_in_place rs -> cat_rules (rules_for CPath rs) = [] \/ cat_name (rules_for CPath rs) = CPath.
Proof.
  intros rs R. induction rs as [|[n c] rs IH]; [left; reflexivity|]. cbn [rules_for]. destruct (cat_eqb CPath n) eqn:Q.
  - right. destruct n; try discriminate. exact (proj1 (R _ _ (or_introl eq_refl))).
  - apply IH. intros n' m J. apply R. right. exact J.
Qed.
(** C106: a whole request, the body aside (C67, C68, C105): every part is decided by its own rules. *)
Theorem C106_request : forall e a r, rules_in_place (req_rules e) -> match_request w x e a = Ok r ->
  one_entry_each (req_query e) -> one_entry_each (req_query a) -> part_unique lower (req_headers a) ->
  part_readable sp lower (req_headers e) -> part_readable sp lower (req_headers a) ->
  let rs := req_rules e in
  (all_matched r = true <->
   lower (req_method e) = lower (req_method a) /\
   path_ok w (rules_for CPath rs) (req_path e) (req_path a) /\
   query_ok w (rules_for CQuery rs) (req_query e) (req_query a) /\
   part_headers_ok w (lowered w (rules_for CHeader rs)) (req_headers e) (req_headers a) /\
   match_body w x (req_part e) (req_part a) (mkCtx false (rules_for CBody rs)) (mkCtx false (lowered w (rules_for CHeader rs))) = Ok BodyOk).
Proof.
  intros e a r RP H QE QA U RE RA rs. pose proof (C24_matched_iff_every_part_matches w x e a r H) as M. cbv zeta in M. fold rs in M, RP.
  destruct (rules_for_ok rs CQuery RP) as [SQ BQ]; [auto|]. destruct (rules_for_ok rs CHeader RP) as [SH BH]; [auto|].
  rewrite M, C25_any_text, (path_iff _ _ _ (path_placed rs RP)), (C106_query w (mkCtx false (rules_for CQuery rs)) SQ BQ _ _ QE QA).
  rewrite (headers_part_iff (header_context w (mkCtx false (rules_for CHeader rs))) _ _ SH (lowered_variants _ BH) U RE RA). reflexivity.
Qed.
(** The same for responses; the status aside (C51). *)
Theorem C106_response : forall e a ms, rules_in_place (resp_rules e) -> match_response w x e a = Ok ms ->
  part_unique lower (resp_headers a) -> part_readable sp lower (resp_headers e) -> part_readable sp lower (resp_headers a) ->
  let rs := resp_rules e in
  (ms = [] <->
   match_status w (resp_status e) (resp_status a) (rules_for CStatus rs) = [] /\
   part_headers_ok w (lowered w (rules_for CHeader rs)) (resp_headers e) (resp_headers a) /\
   match_body w x (resp_part e) (resp_part a) (mkCtx true (rules_for CBody rs)) (mkCtx false (lowered w (rules_for CHeader rs))) = Ok BodyOk).
Proof.
  intros e a ms RP H U RE RA rs. unfold match_response in H. fold rs in H. unfold ctx_for in H.
  destruct (rules_for_ok rs CHeader RP) as [SH BH]; [auto|].
  rewrite <- (headers_part_iff (header_context w (mkCtx false (rules_for CHeader rs))) _ _ SH (lowered_variants _ BH) U RE RA), <- flat_matched.
  change (mkCtx false (lowered w (rules_for CHeader rs))) with (header_context w (mkCtx false (rules_for CHeader rs))).
  destruct (match_body w x _ _ _ _) as [b| |] eqn:B; try discriminate. cbn [bind] in H. injection H as <-.
  pose proof (match_body_groups _ _ _ _ _ _ _ B) as G.
  assert (body_mismatches b = [] <-> @Ok body_result unit b = Ok BodyOk) as BM.
  { destruct b as [| |g]; cbn in *; try (split; [discriminate | intro E; discriminate]); [tauto|]. split; [|discriminate].
    intro E. apply map_eq_nil in E. contradiction. }
  rewrite <- BM. split.
  - intro E. apply app_eq_nil in E as [E1 E]. apply app_eq_nil in E as [E2 E3]. apply map_eq_nil in E2, E3. auto.
  - intros [-> [-> ->]]. reflexivity.
Qed.
End Whole.

(** ** Which rules apply when several match *)
(** For a query parameter or header the first one in the order of the rule map decides, the specific ones have no priority: with the
    same rules in another order the outcome is another one. *)
Definition any_param : docpath := from_tokens [TRoot; TStar].
Definition param_a : docpath := from_tokens [TRoot; TField (S_ "a")].
Theorem C106_order_of_the_rules_matters : forall w, exists m m' E A,
  Permutation (cat_rules m) (cat_rules m') /\ cat_name m = CQuery /\ cat_name m' = CQuery /\
  ~ matched (match_query w E A (mkCtx false m)) /\ matched (match_query w E A (mkCtx false m')).
Proof.
  intro w. exists (mkCat CQuery [(any_param, rl_new REquality); (param_a, rl_new RType)]), (mkCat CQuery [(param_a, rl_new RType); (any_param, rl_new REquality)]),
    (Some [(S_ "a", [Some (S_ "1")])]), (Some [(S_ "a", [Some (S_ "2")])]).
  split; [apply perm_swap|]. split; [reflexivity|]. split; [reflexivity|]. split.
  - intro M. specialize (M (S_ "a")). vm_compute in M. specialize (M _ (or_introl eq_refl)). discriminate.
  - intros k l J. vm_compute in J. destruct J as [J|[]]. injection J as <- <-. reflexivity.
Qed.
(** With at most one rule path for each place the order does not matter. *)
Lemma first_for_one : forall m m' p rl, Permutation (cat_rules m) (cat_rules m') ->
  (forall e e', In e (cat_rules m) -> In e' (cat_rules m) -> candidate (to_vec p) (fst e) -> candidate (to_vec p) (fst e') -> e = e') ->
  first_for m p rl -> first_for m' p rl.
Proof.
  intros m m' p rl P U (b & q & a & E & C & _).
  assert (In (q, rl) (cat_rules m)) as J by (rewrite E; apply in_or_app; right; left; reflexivity).
  assert (In (q, rl) (cat_rules m')) as J' by (eapply Permutation_in; eassumption).
  assert (forall e, In e (cat_rules m') -> candidate (to_vec p) (fst e) -> e = (q, rl)) as U'.
  { intros e Ie Ce. apply U; [eapply Permutation_in; [apply Permutation_sym, P | exact Ie] | exact J | exact Ce | exact C]. }
  clear -J' C U'. unfold first_for. induction (cat_rules m') as [|e l IH]; [destruct J'|].
  destruct (matches_path (fst e) (to_vec p)) eqn:M.
  - apply matches_iff in M. rewrite (U' e (or_introl eq_refl) M). exists [], q, l. split; [reflexivity|]. split; [exact C | intros ? []].
  - destruct J' as [->|J']; [apply matches_iff in C; cbn [fst] in M; congruence|].
    destruct IH as (b & q' & a & E & C' & NB); [exact J' | intros e' Ie; apply U'; right; exact Ie|].
    exists (e :: b), q', a. split; [rewrite E; reflexivity|]. split; [exact C'|]. intros e' [<-|Ie]; [intro Z; apply matches_iff in Z; congruence | apply NB, Ie].
Qed.
Theorem C106_order_with_one_rule_each : forall m m' p rl, Permutation (cat_rules m) (cat_rules m') -> cat_name m = cat_name m' -> cat_name m <> CBody ->
  (forall e e', In e (cat_rules m) -> In e' (cat_rules m) -> candidate (to_vec p) (fst e) -> candidate (to_vec p) (fst e') -> e = e') ->
  (applies m p rl <-> applies m' p rl).
Proof.
  intros m m' p rl P N NB U. unfold applies. rewrite <- N.
  assert (first_for m p rl <-> first_for m' p rl) as F.
  { split; [apply first_for_one; assumption|]. apply first_for_one; [apply Permutation_sym, P|].
    intros e e' Ie Ie'. apply U; eapply Permutation_in; try eassumption; apply Permutation_sym, P. }
  destruct (cat_name m); try exact F. congruence.
Qed.

(** ** Rules in lower case *)
Lemma ascii_lowered : forall w s, ascii_text s -> to_lower w (to_lower w s) = to_lower w s.
Proof.
  intros w s A. unfold to_lower. rewrite (lower_ascii w s [] A). rewrite lower_ascii.
  - rewrite map_map. apply map_ext. intro c. unfold ascii_lower_char. destruct ((65 <=? c) && (c <=? 90)) eqn:E; [|rewrite E; reflexivity].
    apply andb_true_iff in E as [E1 E2]. apply N.leb_le in E1, E2.
    assert (c + 32 <=? 90 = false) as -> by (apply N.leb_gt; lia). rewrite andb_false_r. reflexivity.
  - intros c J. apply in_map_iff in J as (d & <- & J). specialize (A d J). unfold ascii_lower_char. destruct ((65 <=? d) && (d <=? 90)) eqn:E; [|exact A].
    apply andb_true_iff in E as [E1 E2]. apply N.leb_le in E1, E2. lia.
Qed.
Definition ascii_path (p : docpath) : Prop := ascii_text (path_expr p) /\ forall f, In (TField f) (path_tokens p) -> ascii_text f.
(** Lower-casing the rules again, as is done for lists of header values, changes nothing. *)
Theorem C106_lowered_once : forall w m, (forall e, In e (cat_rules m) -> ascii_path (fst e)) -> lowered w (lowered w m) = lowered w m.
Proof.
  intros w m A. unfold lowered, header_context. cbn [matchers cat_name cat_rules].
  set (f := fun (m : list (docpath * rulelist)) pr => hm_insert (to_lower_case (to_lower w) (fst pr)) (snd pr) m).
  f_equal. set (lc := to_lower_case (to_lower w)).
  assert (forall p, ascii_path p -> lc (lc p) = lc p) as ID.
  { intros p [A1 A2]. unfold lc, to_lower_case. cbn [path_tokens path_expr]. f_equal; [|apply ascii_lowered, A1].
    rewrite map_map. apply map_ext_in. intros t J. destruct t as [|n| | |]; try reflexivity. f_equal. apply ascii_lowered, A2, J. }
  assert (forall k (v : rulelist) acc (Q : docpath -> Prop), Q k -> (forall e, In e acc -> Q (fst e)) -> forall e, In e (hm_insert k v acc) -> Q (fst e)) as INS.
  { intros k v acc Q Qk. induction acc as [|[k' y] acc IH]; intros H e J; cbn [hm_insert] in J.
    - destruct J as [<-|[]]. exact Qk.
    - destruct (path_eqb k k').
      + destruct J as [<-|J]; [apply (H (k', y) (or_introl eq_refl)) | apply H; right; exact J].
      + destruct J as [<-|J]; [apply (H (k', y) (or_introl eq_refl)) | apply IH; [intros e' Ie; apply H; right; exact Ie | exact J]]. }
  assert (forall l acc, (forall e, In e l -> ascii_path (fst e)) -> (forall e, In e acc -> lc (fst e) = fst e) ->
    forall e, In e (fold_left f l acc) -> lc (fst e) = fst e) as LOW.
  { induction l as [|pr l IH]; intros acc Al Ha e J; [apply Ha, J|]. cbn [fold_left] in J. apply (IH (f acc pr)); [intros e' Ie; apply Al; right; exact Ie| |exact J].
    intros e' Ie. unfold f in Ie. eapply (INS _ _ acc (fun p => lc p = p)); [| |exact Ie]; [apply ID, Al; left; reflexivity | exact Ha]. }
  assert (forall l acc, NoDup (map (fun e => path_expr (fst e)) acc) -> NoDup (map (fun e : docpath * rulelist => path_expr (fst e)) (fold_left f l acc))) as ND.
  { assert (forall k (v : rulelist) acc, map (fun e : docpath * rulelist => path_expr (fst e)) (hm_insert k v acc) =
       if existsb (path_eqb k) (map fst acc) then map (fun e => path_expr (fst e)) acc else map (fun e => path_expr (fst e)) acc ++ [path_expr k]) as KE.
    { intros k v acc. induction acc as [|[k' y] acc IH]; [reflexivity|]. cbn [hm_insert map existsb fst]. destruct (path_eqb k k') eqn:Q; [reflexivity|].
      cbn [orb map fst]. rewrite IH. destruct (existsb _ _); reflexivity. }
    induction l as [|pr l IH]; intros acc H; [exact H|]. cbn [fold_left]. apply IH. unfold f. rewrite KE. destruct (existsb _ _) eqn:X; [exact H|].
    apply (Permutation_NoDup (Permutation_cons_append _ _)). constructor; [|exact H]. intro J. apply in_map_iff in J as (e & Ee & Je).
    assert (existsb (path_eqb (to_lower_case (to_lower w) (fst pr))) (map fst acc) = true); [|congruence].
    apply existsb_exists. exists (fst e). split; [apply in_map, Je|]. unfold path_eqb. rewrite Ee. apply str_eqb_refl. }
  specialize (LOW (cat_rules m) [] A (fun e J => match J with end)). specialize (ND (cat_rules m) [] (NoDup_nil _)). fold f.
  set (L := fold_left f (cat_rules m) []) in *. clearbody L. clear -LOW ND.
  assert (forall l acc, NoDup (map (fun e => path_expr (fst e)) (acc ++ l)) -> (forall e, In e l -> lc (fst e) = fst e) -> fold_left f l acc = acc ++ l) as G.
  { induction l as [|pr l IH]; intros acc N H; [rewrite app_nil_r; reflexivity|]. cbn [fold_left]. unfold f at 2. fold (lc (fst pr)).
    rewrite (H pr (or_introl eq_refl)). assert (hm_insert (fst pr) (snd pr) acc = acc ++ [(fst pr, snd pr)]) as ->.
    { clear -N. induction acc as [|[k y] acc IHa]; [reflexivity|]. cbn [hm_insert app]. destruct (path_eqb (fst pr) k) eqn:Q.
      - exfalso. cbn [app map fst] in N. inversion N as [|? ? NI _]; subst. apply NI. unfold path_eqb in Q. apply str_eqb_eq in Q. rewrite <- Q.
        apply in_map_iff. exists pr. split; [reflexivity|]. apply in_or_app. right. left. reflexivity.
      - rewrite IHa; [reflexivity|]. cbn [app map] in N. inversion N; assumption. }
    rewrite <- surjective_pairing. rewrite IH; [rewrite <- app_assoc; reflexivity | | intros e Ie; apply H; right; exact Ie].
    rewrite <- app_assoc. exact N. }
  exact (G L [] ND LOW).
Qed.

(** ** Cases that meet the hypotheses *)
Definition ex_query_rules : category := mkCat CQuery
  [(from_tokens [TRoot; TField (S_ "ids")], mkRules [RMinType 2; RInclude (S_ "x")] And false);
   (from_tokens [TRoot; TField (S_ "tag"); TIndex 1], mkRules [RType] And false)].
Definition ex_q (ids tags : list string) : option query_map :=
  Some [(S_ "ids", map (fun s => Some (S_ s)) ids); (S_ "tag", map (fun s => Some (S_ s)) tags)].
Theorem C106_example : forall w,
  searched ex_query_rules /\ body_variants ex_query_rules /\ one_entry_each (ex_q ["x"]%string ["p"; "q"]%string) /\
  (let ok a := matched (match_query w (ex_q ["x"]%string ["p"; "q"]%string) a (mkCtx false ex_query_rules)) in
   ok (ex_q ["ax"; "xb"; "x"]%string ["p"; "other"]%string) /\ ~ ok (ex_q ["ax"]%string ["p"; "q"]%string) /\ ~ ok (ex_q ["ax"; "b"]%string ["p"; "q"]%string) /\ ~ ok (ex_q ["ax"; "x"]%string ["other"; "q"]%string)).
Proof.
  intro w. split; [left; reflexivity|]. split.
  { intros e vs [<-|[<-|[]]] J; cbn in J; repeat destruct J as [J|J]; try discriminate; destruct J. }
  split; [cbn; repeat constructor; cbn; intuition discriminate|]. cbv zeta.
  assert (forall a, matched (match_query w (ex_q ["x"]%string ["p"; "q"]%string) a (mkCtx false ex_query_rules)) <->
    forallb (fun kv => match snd kv with [] => true | _ => false end) (match_query w (ex_q ["x"]%string ["p"; "q"]%string) a (mkCtx false ex_query_rules)) = true) as M.
  { intro a. rewrite forallb_forall. split.
    - intros H [k l] J. cbn [snd]. rewrite (H k l J). reflexivity.
    - intros H k l J. specialize (H _ J). cbn [snd] in H. destruct l; [reflexivity | discriminate]. }
  rewrite !M. split; [vm_compute; reflexivity|]. split; [vm_compute; discriminate|]. split; vm_compute; discriminate.
Qed.
Definition ex_header_rules : category := mkCat CHeader
  [(from_tokens [TRoot; TField (S_ "X-Ids")], mkRules [RMaxType 2; RInclude (S_ "x")] And false);
   (from_tokens [TRoot; TField (S_ "Via"); TIndex 1], mkRules [RType] And false)].
Definition ex_h (ids via : list string) : option hmap := Some [(S_ "x-IDS", map S_ ids); (S_ "VIA", map S_ via)].
Theorem C106_header_example : forall w,
  searched (lowered w ex_header_rules) /\ body_variants (lowered w ex_header_rules) /\
  (let ok a := matched (match_headers w (ex_h ["x"; "y"]%string ["p"; "q"]%string) a (header_context w (mkCtx false ex_header_rules))) in
   ok (ex_h ["ax"; "xb"]%string ["p"; "other"]%string) /\ ok (ex_h ["xx"]%string ["p"; "q"]%string) /\ ~ ok (ex_h ["x"; "xx"; "bx"]%string ["p"; "q"]%string) /\
   ~ ok (ex_h ["x"; "b"]%string ["p"; "q"]%string) /\ ~ ok (ex_h ["x"]%string ["other"; "q"]%string)).
Proof.
  intro w. split; [right; left; reflexivity|]. split.
  { apply lowered_variants. intros e vs [<-|[<-|[]]] J; cbn in J; repeat destruct J as [J|J]; try discriminate; destruct J. }
  cbv zeta.
  assert (forall a, matched (match_headers w (ex_h ["x"; "y"]%string ["p"; "q"]%string) a (header_context w (mkCtx false ex_header_rules))) <->
    forallb (fun kv => match snd kv with [] => true | _ => false end) (match_headers w (ex_h ["x"; "y"]%string ["p"; "q"]%string) a (header_context w (mkCtx false ex_header_rules))) = true) as M.
  { intro a. rewrite forallb_forall. split.
    - intros H [k l] J. cbn [snd]. rewrite (H k l J). reflexivity.
    - intros H k l J. specialize (H _ J). cbn [snd] in H. destruct l; [reflexivity | discriminate]. }
  rewrite !M. split; [vm_compute; reflexivity|]. split; [vm_compute; reflexivity|]. split; [vm_compute; discriminate|]. split; vm_compute; discriminate.
Qed.
