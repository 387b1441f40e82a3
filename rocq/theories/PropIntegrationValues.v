(** C76: matchers in paths, query parameters, headers, status codes and metadata. *)
From Coq Require Import String List Arith NArith ZArith Lia Bool.
From Verif Require Import Base PathExp Json MatchingRules Expr Generators RuleExpr Integration SpecIntegration.
From Verif Require Import IntegrationValues SpecIntegrationValues PropIntegration.
Import ListNotations.
Open Scope N_scope.
Local Opaque show_N.

Lemma hm_remove_get {A} : forall k (m : list (docpath * A)) p, distinct m ->
  hm_get p (hm_remove k m) = if path_eqb p k then None else hm_get p m.
Proof.
  intros k m p. unfold distinct. induction m as [|[k' v] m IH]; intro D; cbn [hm_remove hm_get].
  - destruct (path_eqb p k); reflexivity.
  - cbn [map fst] in D. inversion D as [|? ? N D']; subst. destruct (path_eqb k k') eqn:E.
    + apply path_eqb_expr in E. destruct (path_eqb p k) eqn:F.
      * apply path_eqb_expr in F. clear IH D D'. induction m as [|[k2 v2] m IH]; [reflexivity|]. cbn [hm_get map fst] in *.
        assert (G : path_eqb p k2 = false) by (apply path_eqb_false; intro H; apply N; left; congruence).
        rewrite G. apply IH. intro H. apply N. right. exact H.
      * apply path_eqb_false in F. assert (G : path_eqb p k' = false) by (apply path_eqb_false; congruence). rewrite G. reflexivity.
    + cbn [hm_get]. rewrite (IH D'). destruct (path_eqb p k) eqn:F; [|reflexivity].
      apply path_eqb_expr in F. apply path_eqb_false in E.
      assert (G : path_eqb p k' = false) by (apply path_eqb_false; congruence). rewrite G. reflexivity.
Qed.
Lemma hm_remove_distinct {A} : forall k (m : list (docpath * A)), distinct m -> distinct (hm_remove k m).
Proof.
  intros k m. unfold distinct. induction m as [|[k' v] m IH]; intro D; cbn [hm_remove]; [constructor|].
  cbn [map fst] in D. inversion D as [|? ? N D']; subst. destruct (path_eqb k k'); [exact D'|]. cbn [map fst]. constructor; [|apply IH, D'].
  intro H. apply N. clear - H. induction m as [|[k2 v2] m IH]; [exact H|]. cbn [hm_remove] in H. destruct (path_eqb k k2); cbn [map fst In] in *; [auto|].
  destruct H as [H|H]; auto.
Qed.
Lemma push_index_expr : forall p i, path_expr (push_index p i) <> path_expr p.
Proof.
  intros p i H. unfold push_index, push in H. cbn [path_expr] in H. rewrite <- (app_nil_r (path_expr p)) in H at 2.
  apply app_inv_head in H. discriminate.
Qed.
Lemma rekey_ok : forall p c, distinct (cat_rules c) ->
  first_renamed (above p) c (rekey_first p c) /\ distinct (cat_rules (rekey_first p c)).
Proof.
  intros p c D. unfold rekey_first, first_renamed. change (parent_or_root p) with (above p).
  destruct (hm_get (above p) (cat_rules c)) as [rl|] eqn:G; [|auto]. cbn [cat_name cat_rules].
  assert (GI : forall q, hm_get q (hm_insert (push_index (above p) 0) rl (hm_remove (above p) (cat_rules c))) =
    if path_eqb q (push_index (above p) 0) then Some rl else if path_eqb q (above p) then None else hm_get q (cat_rules c)).
  { intro q. rewrite ghm_insert_get, hm_remove_get by exact D. reflexivity. }
  split; [split; [reflexivity|]; split; [|split]|].
  - rewrite GI. assert (F : path_eqb (above p) (push_index (above p) 0) = false).
    { apply path_eqb_false. intro H. exact (push_index_expr (above p) 0 (eq_sym H)). }
    rewrite F. assert (T : path_eqb (above p) (above p) = true) by (apply path_eqb_expr; reflexivity). rewrite T. reflexivity.
  - rewrite GI. assert (T : path_eqb (push_index (above p) 0) (push_index (above p) 0) = true) by (apply path_eqb_expr; reflexivity).
    rewrite T. reflexivity.
  - intros q N1 N2. rewrite GI. apply path_eqb_false in N1, N2. rewrite N1, N2. reflexivity.
  - apply ghm_insert_distinct, hm_remove_distinct, D.
Qed.

Section Values.
Variable w : world.
Variable junk : str -> nat.
Variable parse : str -> option json.

Lemma texts_ok : forall v, texts w v (texts_of w v).
Proof.
  destruct v; try reflexivity. exists (map (json_to_string w) l). split; [reflexivity|]. induction l; constructor; auto.
Qed.

(** A text that is not a JSON object is taken as it is. *)
Theorem C76_plain_text : forall value path index st, (forall m, parse value <> Some (JObj m)) ->
  from_integration_json_v2 w junk parse value path index st = Ok (inl value, st).
Proof.
  intros value path index st H. unfold from_integration_json_v2. destruct (parse value) as [[| | | | |m]|] eqn:P; try reflexivity.
  exfalso. eapply H. reflexivity.
Qed.
(** An object without a matcher stands for its "value"; it adds no rules. *)
Theorem C76_value_only : forall value path index st m, parse value = Some (JObj m) ->
  ~ In (S_ "pact:matcher:type") (keys m) ->
  exists r, from_integration_json_v2 w junk parse value path index st = Ok (r, st) /\
    texts w (match obj_get (S_ "value") m with Some v => v | None => JNull end) r.
Proof.
  intros value path index st m P K. unfold from_integration_json_v2. rewrite P. unfold obj_has.
  destruct (obj_get matcher_type m) as [t|] eqn:T; [exfalso; apply K, in_keys_get; exists t; exact T|].
  eexists. split; [reflexivity|]. apply texts_ok.
Qed.

Lemma rule_place_ok : forall n p, rule_place n p (if is_path_or_status n then parent_or_root p else p).
Proof.
  intros n p. unfold rule_place, whole_value. destruct n; cbn; split; intro H; try reflexivity; try (destruct H; discriminate);
    exfalso; apply H; auto.
Qed.
Lemma rules_added_only : forall target rules v c c' ,
  c' = fold_left (fun c rule => x_add_rule c target rule And) rules c ->
  rules_added target [mkOcc [] rules [] v] c c' /\ (distinct (cat_rules c) -> distinct (cat_rules c')).
Proof.
  intros target rules v c c' ->. destruct (added_rules target [] rules v (mkStore c [])) as (R & _ & D & _). split; assumption.
Qed.

Lemma generator_at_opt : forall p o st c q,
  generator_at c (st_gens (add_gen_opt p o st)) q =
  if gcat_eqb c (generators_of_kind (cat_name (st_rules st))) && path_eqb q p then last_of (optional o) (generator_at c (st_gens st) q)
  else generator_at c (st_gens st) q.
Proof.
  intros p [g|] st c q; cbn [add_gen_opt optional last_of].
  - unfold add_gen. cbn [st_gens]. rewrite generator_at_add, kind_ok. destruct (gcat_eqb c _); cbn [andb]; [|reflexivity].
    destruct (path_eqb q p); reflexivity.
  - destruct (gcat_eqb c _ && path_eqb q p); reflexivity.
Qed.
Lemma add_gen_opt_rules : forall p o st, st_rules (add_gen_opt p o st) = st_rules st.
Proof. intros p [g|] st; reflexivity. Qed.
Lemma fold_add_name : forall p rules c, cat_name (fold_left (fun c rule => x_add_rule c p rule And) rules c) = cat_name c.
Proof. intros p rules. induction rules as [|r rules IH]; intro c; [reflexivity|]. cbn [fold_left]. rewrite IH. reflexivity. Qed.
Lemma rekey_name : forall p c, cat_name (rekey_first p c) = cat_name c.
Proof. intros p c. unfold rekey_first. destruct (hm_get _ _); reflexivity. Qed.


Definition up (n : category_name) (p : docpath) : docpath := if is_path_or_status n then parent_or_root p else p.
Definition stored (n : category_name) (path : docpath) (index : N) (mf : outcome (list xrule * option generator) unit) (st : store) : store :=
  match mf with
  | Ok (rules, generator) =>
      add_gen_opt (up n (up n path)) generator
        (mkStore (fold_left (fun c rule => x_add_rule c (up n path) rule And) rules
           (if is_query_or_header n && (0 <? index) then rekey_first (up n path) (st_rules st) else st_rules st)) (st_gens st))
  | _ => st
  end.
Definition with_own (n : category_name) (path : docpath) (m : list (str * json)) (st : store) : store :=
  match obj_get generator_type m with
  | Some gen => add_gen_opt (up n path) (gen_from_map w (json_to_string w gen) m) st
  | None => st
  end.
Lemma decompose : forall value path index st m r st', parse value = Some (JObj m) ->
  In (S_ "pact:matcher:type") (keys m) ->
  from_integration_json_v2 w junk parse value path index st = Ok (r, st') ->
  exists v occs st0, r = texts_of w v /\ example_at w junk m v occs /\ added path occs st st0 /\
    matchers_from_integration_json w junk m <> Panic /\
    st' = with_own (cat_name (st_rules st)) path m
            (stored (cat_name (st_rules st)) path index (matchers_from_integration_json w junk m) st0).
Proof.
  intros value path index st m r st' P K H. unfold from_integration_json_v2 in H. rewrite P in H.
  assert (T : obj_has matcher_type m = true).
  { unfold obj_has. apply in_keys_get in K as [t T]. change matcher_type with (S_ "pact:matcher:type"). rewrite T. reflexivity. }
  rewrite T in H.
  destruct (matcher_value w junk m path index st) as [[v st1]|e|] eqn:M; cbn [bind fst snd] in H; try discriminate.
  injection H as <- <-. unfold matcher_value in M.
  set (mf := matchers_from_integration_json w junk m) in *.
  assert (NP : mf <> Panic) by (intro X; rewrite X in M; discriminate).
  assert (M' : bind (match obj_get (S_ "value") m with
        | Some (JArr array) => process_array (process w junk (json_depth (JObj m))) array path true false st
        | Some val => Ok (val, st)
        | None => Ok (JNull, st)
        end) (fun r => Ok (fst r, with_own (cat_name (st_rules st)) path m (stored (cat_name (st_rules st)) path index mf (snd r)))) = Ok (v, st1))
    by (destruct mf as [[rs g]|e|]; [exact M|exact M|contradiction]).
  clear M. destruct (match obj_get (S_ "value") m with
        | Some (JArr array) => process_array (process w junk (json_depth (JObj m))) array path true false st
        | Some val => Ok (val, st)
        | None => Ok (JNull, st)
        end) as [[v0 st0]|e|] eqn:V; cbn [bind fst snd] in M'; try discriminate.
  assert (EX : exists occs, example_at w junk m v0 occs /\ added path occs st st0).
  { destruct (obj_get (S_ "value") m) as [x|] eqn:G.
    - assert (A : (exists l, x = JArr l) \/ (forall l, x <> JArr l)) by (destruct x; (right; intros; discriminate) || (left; eauto)).
      destruct A as [[l ->]|A].
      + unfold process_array in V. destruct (items_in_order _ 0 l st) as [[l' st2]|e|] eqn:E; cbn [bind fst snd] in V; try discriminate.
        injection V as <- <-.
        apply (items_sound w junk _ (process_sound w junk (json_depth (JObj m))) path (mkMode false true false) []) in E as (o & R & A).
        exists o. split; [eapply ex_array; eassumption|exact A].
      + assert (E : v0 = x /\ st0 = st) by (destruct x; first [injection V as <- <-; auto | exfalso; eapply A; reflexivity]).
        destruct E as [-> ->]. exists []. split; [apply ex_other; assumption|apply added_nil].
    - injection V as <- <-. exists []. split; [apply ex_none, G|apply added_nil]. }
  destruct EX as (occs & EX & A). injection M' as <- <-.
  exists v0, occs, st0. split; [reflexivity|]. split; [exact EX|]. split; [exact A|]. split; [exact NP|reflexivity].
Qed.
Lemma with_own_rules : forall n path m st, st_rules (with_own n path m st) = st_rules st.
Proof. intros. unfold with_own. destruct (obj_get generator_type m); [apply add_gen_opt_rules|reflexivity]. Qed.
Lemma stored_name : forall n path index mf st, cat_name (st_rules (stored n path index mf st)) = cat_name (st_rules st).
Proof.
  intros n path index mf st. unfold stored. destruct mf as [[rules g]|e|]; try reflexivity. rewrite add_gen_opt_rules. cbn [st_rules].
  rewrite fold_add_name. destruct (is_query_or_header n && (0 <? index)); [apply rekey_name|reflexivity].
Qed.

(** A matcher: the texts are those of its example value. The matchers in the elements of an array go below the
    place ([mid]); then, when a later value of a list is given, the rules of the name alone are renamed to those of the
    first value ([mid']); then the rules of the matcher itself are added. *)
Theorem C76_matcher : forall value path index st m r st', parse value = Some (JObj m) ->
  In (S_ "pact:matcher:type") (keys m) -> distinct (cat_rules (st_rules st)) ->
  from_integration_json_v2 w junk parse value path index st = Ok (r, st') ->
  exists v occs mid target,
    example_at w junk m v occs /\ texts w v r /\
    rules_added path occs (st_rules st) mid /\
    rule_place (cat_name (st_rules st)) path target /\
    ((forall rules g, ~ says w junk m rules g) -> st_rules st' = mid) /\
    (forall rules g, says w junk m rules g -> exists mid',
       (listed_value (cat_name (st_rules st)) -> 0 < index -> first_renamed (above target) mid mid') /\
       (~ listed_value (cat_name (st_rules st)) \/ index = 0 -> mid' = mid) /\
       rules_added target [mkOcc [] rules [] v] mid' (st_rules st')) /\
    distinct (cat_rules (st_rules st')).
Proof.
  intros value path index st m r st' P K DS H. apply decompose with (1 := P) (2 := K) in H as (v0 & occs & st0 & -> & EX & (AR & _ & AD & _) & NP & ->).
  pose proof (C75_what_a_matcher_says w junk m) as SY. rewrite with_own_rules.
  set (mf := matchers_from_integration_json w junk m) in *. set (n := cat_name (st_rules st)) in *.
  assert (DM : distinct (cat_rules (st_rules st0))) by (apply AD, DS).
  exists v0, occs, (st_rules st0), (up n path). split; [exact EX|]. split; [apply texts_ok|].
  split; [exact AR|]. split; [apply rule_place_ok|]. split; [|split].
  - intro NS. unfold stored. destruct mf as [[rules g]|e|] eqn:F; [|reflexivity|contradiction].
    exfalso. eapply NS. apply SY; [exact K|reflexivity].
  - intros rules g Hs. apply SY in Hs; [|exact K]. unfold stored. rewrite Hs. rewrite add_gen_opt_rules. cbn [st_rules].
    set (mid' := if is_query_or_header n && (0 <? index) then rekey_first (up n path) (st_rules st0) else st_rules st0).
    exists mid'. split; [|split].
    + intros L I. unfold mid'. assert (B : is_query_or_header n && (0 <? index) = true).
      { apply andb_true_intro. split; [destruct L as [-> | ->]; reflexivity|apply N.ltb_lt; exact I]. }
      rewrite B. apply rekey_ok, DM.
    + intros L. unfold mid'. assert (B : is_query_or_header n && (0 <? index) = false).
      { destruct L as [L| ->]; [|apply andb_false_r]. destruct (is_query_or_header n) eqn:Q; [|reflexivity].
        exfalso. apply L. unfold listed_value. destruct n; try discriminate; auto. }
      rewrite B. reflexivity.
    + apply (rules_added_only (up n path) rules v0 mid' _ eq_refl).
  - unfold stored. destruct mf as [[rules g]|e|] eqn:F; [|exact DM|contradiction]. rewrite add_gen_opt_rules. cbn [st_rules].
    apply (rules_added_only (up n path) rules v0 _ _ eq_refl).
    destruct (is_query_or_header n && (0 <? index)); [apply rekey_ok, DM|exact DM].
Qed.
(** Its generators: those of the elements, then the one of the expression, then the one next to the matcher. Other
    kinds of generators stay. *)
Theorem C76_generators : forall value path index st m r st', parse value = Some (JObj m) ->
  In (S_ "pact:matcher:type") (keys m) ->
  from_integration_json_v2 w junk parse value path index st = Ok (r, st') ->
  exists v occs target target' rest,
    example_at w junk m v occs /\
    rule_place (cat_name (st_rules st)) path target /\ rule_place (cat_name (st_rules st)) target target' /\
    ((forall rules g, ~ says w junk m rules g) -> rest = []) /\ (forall rules g, says w junk m rules g -> rest = optional g) /\
    forall c p, generator_at c (st_gens st') p =
      if gcat_eqb c (generators_of_kind (cat_name (st_rules st))) then
        last_of (gens_for path occs p ++ (if path_eqb p target' then rest else []) ++ (if path_eqb p target then own_generator w m else []))
                (generator_at c (st_gens st) p)
      else generator_at c (st_gens st) p.
Proof.
  intros value path index st m r st' P K H. apply decompose with (1 := P) (2 := K) in H as (v0 & occs & st0 & -> & EX & ((AN & _) & AG & _) & NP & ->).
  pose proof (C75_what_a_matcher_says w junk m) as SY.
  set (mf := matchers_from_integration_json w junk m) in *. set (n := cat_name (st_rules st)) in *.
  exists v0, occs, (up n path), (up n (up n path)), (match mf with Ok (_, g) => optional g | _ => [] end).
  split; [exact EX|]. split; [apply rule_place_ok|]. split; [apply rule_place_ok|]. split; [|split].
  - intro NS. destruct mf as [[rules g]|e|] eqn:F; [|reflexivity|reflexivity]. exfalso. eapply NS. apply SY; [exact K|reflexivity].
  - intros rules g Hs. apply SY in Hs; [|exact K]. rewrite Hs. reflexivity.
  - intros c p. assert (OW : generator_at c (st_gens (with_own n path m (stored n path index mf st0))) p =
      if gcat_eqb c (generators_of_kind n) && path_eqb p (up n path) then last_of (own_generator w m) (generator_at c (st_gens (stored n path index mf st0)) p)
      else generator_at c (st_gens (stored n path index mf st0)) p).
    { unfold with_own, own_generator. change generator_type with (S_ "pact:generator:type").
      destruct (obj_get (S_ "pact:generator:type") m) as [t|].
      - rewrite generator_at_opt, stored_name, AN. fold n. destruct (gen_from_map w (json_to_string w t) m); reflexivity.
      - cbn [last_of]. destruct (gcat_eqb c _ && _); reflexivity. }
    rewrite OW. assert (ST : generator_at c (st_gens (stored n path index mf st0)) p =
      if gcat_eqb c (generators_of_kind n) && path_eqb p (up n (up n path))
      then last_of (match mf with Ok (_, g) => optional g | _ => [] end) (generator_at c (st_gens st0) p)
      else generator_at c (st_gens st0) p).
    { unfold stored. destruct mf as [[rules g]|e|]; [|cbn [last_of]; destruct (gcat_eqb c (generators_of_kind n) && path_eqb p (up n (up n path))); reflexivity|cbn [last_of]; destruct (gcat_eqb c (generators_of_kind n) && path_eqb p (up n (up n path))); reflexivity].
      rewrite generator_at_opt. cbn [st_rules st_gens]. rewrite fold_add_name.
      match goal with |- context [if ?b then rekey_first ?q ?r else _] => destruct b end; [rewrite rekey_name|]; rewrite AN; reflexivity. }
    rewrite ST, AG. fold n. destruct (gcat_eqb c (generators_of_kind n)); cbn [andb]; [|reflexivity].
    rewrite !last_of_app. destruct (path_eqb p (up n (up n path))), (path_eqb p (up n path)); reflexivity.
Qed.
(** Paths and status codes: everything is put at the root. *)
Theorem C76_path_and_status : forall value st m r st' rules g, parse value = Some (JObj m) ->
  whole_value (cat_name (st_rules st)) -> distinct (cat_rules (st_rules st)) -> says w junk m rules g ->
  (forall l, obj_get (S_ "value") m <> Some (JArr l)) ->
  from_integration_json_v2 w junk parse value path_empty 0 st = Ok (r, st') ->
  exists v, texts w v r /\ v = (match obj_get (S_ "value") m with Some v => v | None => JNull end) /\
    rules_added path_root [mkOcc [] rules [] v] (st_rules st) (st_rules st') /\
    gens_added path_root [mkOcc [] rules (optional g ++ own_generator w m) v]
      (generator_at (generators_of_kind (cat_name (st_rules st))) (st_gens st))
      (generator_at (generators_of_kind (cat_name (st_rules st))) (st_gens st')).
Proof.
  intros value st m r st' rules g P W D SYS NA H.
  assert (K : In (S_ "pact:matcher:type") (keys m)) by (destruct SYS; apply in_keys_get; eauto).
  assert (NL : ~ listed_value (cat_name (st_rules st))) by (intros [X|X]; destruct W as [Y|Y]; rewrite X in Y; discriminate).
  assert (EXU : forall v occs, example_at w junk m v occs -> v = (match obj_get (S_ "value") m with Some v => v | None => JNull end) /\ occs = []).
  { intros v occs [E|l l' o E _|x E _]; rewrite E; [auto|exfalso; exact (NA _ E)|auto]. }
  destruct (C76_matcher _ _ _ _ _ _ _ P K D H) as (v & occs & mid & target & EX & TX & RA & (RP & _) & _ & HS & _).
  destruct (C76_generators _ _ _ _ _ _ _ P K H) as (v2 & occs2 & t1 & t2 & rest & EX2 & (RP1 & _) & (RP2 & _) & _ & HR & HG).
  apply EXU in EX as [-> ->]. apply EXU in EX2 as [-> ->]. eexists. split; [exact TX|]. split; [reflexivity|].
  specialize (RP W). specialize (RP1 W). specialize (RP2 W). change (above path_empty) with path_root in *. subst target t1. change (above path_root) with path_root in *. subst t2.
  destruct (HS rules g SYS) as (mid' & _ & E & RA'). rewrite (E (or_introl NL)) in RA'. split.
  - destruct RA' as (N1 & R1), RA as (N0 & R0). split; [congruence|]. intro p. rewrite R1, R0. change (rules_for path_empty [] p) with (@nil xrule).
    destruct (hm_get p (cat_rules (st_rules st))) as [[a b c]|]; cbn [rl_rules rl_logic rl_cascaded]; rewrite ?app_nil_r; reflexivity.
  - intro p. rewrite HG. rewrite (HR rules g SYS). rewrite (proj2 (gcat_eqb_eq _ _) eq_refl). unfold gens_for. cbn [flat_map o_route o_gens app].
    change (path_of path_root []) with path_root. destruct (path_eqb p path_root); cbn [app]; rewrite ?app_nil_r; reflexivity.
Qed.

(** Metadata: texts that are not JSON are texts; structures are documents at the path the key spells. *)
Theorem C76_metadata_text : forall key value st, parse value = None ->
  metadata_value w junk parse key value st = Ok (JStr value, st).
Proof. intros key value st P. unfold metadata_value. rewrite P. reflexivity. Qed.
Theorem C76_metadata : forall key value st json v' st', parse value = Some json ->
  metadata_value w junk parse key value st = Ok (v', st') ->
  (forall m, json <> JObj m) /\ (forall l, json <> JArr l) /\ v' = json /\ st' = st \/
  exists p occs, path_new_w w key = Ok p /\ reading w junk exactly [] json v' occs /\
    rules_added p occs (st_rules st) (st_rules st') /\
    gens_added p occs (generator_at (generators_of_kind (cat_name (st_rules st))) (st_gens st))
                      (generator_at (generators_of_kind (cat_name (st_rules st))) (st_gens st')).
Proof.
  intros key value st json v' st' P H. unfold metadata_value in H. rewrite P in H.
  assert (Q : forall p, process w junk (json_depth json) false false false p json st = Ok (v', st') ->
    exists occs, reading w junk exactly [] json v' occs /\
    rules_added p occs (st_rules st) (st_rules st') /\
    gens_added p occs (generator_at (generators_of_kind (cat_name (st_rules st))) (st_gens st))
                      (generator_at (generators_of_kind (cat_name (st_rules st))) (st_gens st'))).
  { intros p X. change p with (path_of p []) in X. apply process_sound in X as (occs & R & A). exists occs. split; [exact R|].
    destruct A as (AR & AG & _). split; [exact AR|]. intro q. rewrite AG, (proj2 (gcat_eqb_eq _ _) eq_refl). reflexivity. }
  destruct json as [| | | |l|m]; try (injection H as <- <-; left; repeat split; discriminate); right;
  (destruct (path_new_w w key) as [p|e|] eqn:E; try discriminate; apply Q in H as (occs & R & A & G); exists p, occs; auto).
Qed.
(** A key that is no path expression makes the call panic, for any structured value. *)
Theorem C76_metadata_panics : forall key value st json e, parse value = Some json ->
  (exists m, json = JObj m) \/ (exists l, json = JArr l) -> path_new_w w key = Err e ->
  metadata_value w junk parse key value st = Panic.
Proof. intros key value st json e P [[m ->]|[l ->]] E; unfold metadata_value; rewrite P, E; reflexivity. Qed.
End Values.

(** ** Examples *)
Definition regex_matcher (re value : str) : json :=
  JObj [(S_ "pact:matcher:type", JStr (S_ "regex")); (S_ "regex", JStr re); (S_ "value", JStr value)].
(** Two values of a header, the second given by its index: the rules of the first are renamed. *)
Example C76_example w junk : let parse := fun s => if str_eqb s (S_ "A") then Some (regex_matcher (S_ "a") (S_ "x")) else Some (regex_matcher (S_ "b") (S_ "y")) in
  exists st1 st2,
  from_integration_json_v2 w junk parse (S_ "A") (push_field path_root (S_ "H")) 0 (mkStore (mkCat CHeader []) []) = Ok (inl (S_ "x"), st1) /\
  from_integration_json_v2 w junk parse (S_ "B") (push_index (push_field path_root (S_ "H")) 1) 1 st1 = Ok (inl (S_ "y"), st2) /\
  map (fun e => (path_expr (fst e), rl_rules (snd e))) (cat_rules (st_rules st1)) = [(S_ "$.H", [XRule (RRegex (S_ "a"))])] /\
  map (fun e => (path_expr (fst e), rl_rules (snd e))) (cat_rules (st_rules st2)) =
    [(S_ "$.H[0]", [XRule (RRegex (S_ "a"))]); (S_ "$.H[1]", [XRule (RRegex (S_ "b"))])].
Proof. cbv zeta. eexists. eexists. split; [vm_compute; reflexivity|]. split; [vm_compute; reflexivity|]. split; vm_compute; reflexivity. Qed.
(** Setting the first value again and then a later one drops the rules the first value had before. *)
Theorem C76_why_first_value_again w junk : let parse := fun s => Some (regex_matcher s (S_ "x")) in
  let H := push_field path_root (S_ "H") in
  exists st1 st2 st3 st4,
  from_integration_json_v2 w junk parse (S_ "a") H 0 (mkStore (mkCat CHeader []) []) = Ok (inl (S_ "x"), st1) /\
  from_integration_json_v2 w junk parse (S_ "b") (push_index H 1) 1 st1 = Ok (inl (S_ "x"), st2) /\
  from_integration_json_v2 w junk parse (S_ "c") H 0 st2 = Ok (inl (S_ "x"), st3) /\
  from_integration_json_v2 w junk parse (S_ "d") (push_index H 2) 2 st3 = Ok (inl (S_ "x"), st4) /\
  hm_get (push_index H 0) (cat_rules (st_rules st3)) = Some (mkRules [XRule (RRegex (S_ "a"))] And false) /\
  hm_get (push_index H 0) (cat_rules (st_rules st4)) = Some (mkRules [XRule (RRegex (S_ "c"))] And false).
Proof.
  cbv zeta. eexists. eexists. eexists. eexists. split; [vm_compute; reflexivity|]. split; [vm_compute; reflexivity|].
  split; [vm_compute; reflexivity|]. split; [vm_compute; reflexivity|]. split; vm_compute; reflexivity.
Qed.
(** The example in the documentation of pactffi_response_status_v2 has no value: the text is empty, which is no number. *)
Theorem C76_why_status_needs_a_value w junk : exists st,
  from_integration_json_v2 w junk
    (fun _ => Some (JObj [(S_ "max", JNum (PosInt 399)); (S_ "min", JNum (PosInt 100)); (S_ "pact:generator:type", JStr (S_ "RandomInt"));
                          (S_ "pact:matcher:type", JStr (S_ "statusCode")); (S_ "status", JStr (S_ "nonError"))]))
    (S_ "text") path_empty 0 (mkStore (mkCat CStatus []) []) = Ok (inl [], st) /\ parse_u16 [] = None.
Proof. eexists. split; vm_compute; reflexivity. Qed.
