(** Properties C48-C56: whole requests and responses, bodies, content types, scores. *)
From Coq Require Import Ascii String List Arith NArith ZArith Lia Bool Sorted Permutation.
From Verif Require Import Base PathExp SpecPath PathExpProofs PropPath Json Text TextProofs MatchingRules Matchers JsonCompare SpecRules
  Headers SpecQuery QueryProofs SpecHeaders HeaderProofs HeaderProofs2 PropHeaders SpecMatch CompareProofs CompareProofs2 PropMatch
  PropValues Query ContentType Http SpecHttp PropHttp PropGovern.
Import ListNotations.
Open Scope N_scope.
Local Opaque show_N.

(** ** C52: content types *)
Lemma list_eqb_eq : forall A (eqb : A -> A -> bool), (forall x y, eqb x y = true <-> x = y) ->
  forall a b, list_eqb eqb a b = true <-> a = b.
Proof.
  intros A eqb H. induction a as [|x a IH]; destruct b as [|y b]; cbn [list_eqb]; try (split; congruence).
  rewrite andb_true_iff, H, IH. split; [intros [-> ->]; reflexivity | intro E; injection E; auto].
Qed.
Lemma attr_eqb_eq : forall x y, attr_eqb x y = true <-> x = y.
Proof. intros [a b] [c d]. unfold attr_eqb. cbn [fst snd]. rewrite andb_true_iff, !str_eqb_eq. split; [intros [-> ->]; reflexivity | intro E; injection E; auto]. Qed.
Lemma ct_eqb_eq : forall a b, ct_eqb a b = true <-> a = b.
Proof.
  intros [m s t f] [m' s' t' f']. unfold ct_eqb. cbn [main_type sub_type attributes suffix].
  rewrite !andb_true_iff, !str_eqb_eq, (list_eqb_eq _ _ attr_eqb_eq). split.
  - intros [[[-> ->] ->] F]. destruct f, f'; try discriminate; [apply str_eqb_eq in F; subst|]; reflexivity.
  - intro E. injection E as -> -> -> ->. repeat split. destruct f'; [apply str_eqb_refl | reflexivity].
Qed.
Lemma suffix_is_eq : forall c s, s <> [] -> (suffix_is c s = true <-> suffix c = Some s).
Proof. intros c s NE. unfold suffix_is. rewrite str_eqb_eq. destruct (suffix c); split; intro H; [subst; reflexivity | injection H as ->; reflexivity | exfalso; apply NE; symmetry; exact H | discriminate]. Qed.
Theorem C52_json_types : forall c, is_json c = true <-> json_type c.
Proof.
  intro c. unfold is_json, json_type, main_is, sub_is. rewrite andb_true_iff, !orb_true_iff, !str_eqb_eq, suffix_is_eq, starts_with_iff by discriminate.
  tauto.
Qed.
Theorem C52_xml_types : forall c, is_xml c = true <-> xml_type c.
Proof.
  intro c. unfold is_xml, xml_type, main_is, sub_is. rewrite andb_true_iff, !orb_true_iff, !str_eqb_eq, suffix_is_eq by discriminate. tauto.
Qed.
(** Every content type is either text or binary. *)
Theorem C52_text_or_binary : forall c, is_binary c = negb (is_text c).
Proof.
  intro c. unfold is_binary, is_text, is_xml, is_json, is_form_urlencoded, main_is, sub_is.
  destruct (str_eqb_spec (main_type c) (S_ "text")) as [->|N]; [reflexivity|].
  destruct (str_eqb_spec (main_type c) (S_ "application")) as [->|N2]; [reflexivity|]. cbn [orb andb negb].
  destruct (_ || _ || _ || _); reflexivity.
Qed.
Theorem C52_text_types : forall c, is_text c = true <->
  main_type c = S_ "text" \/ json_type c \/ xml_type c \/ form_type c.
Proof.
  intro c. unfold is_text, is_form_urlencoded, form_type, main_is, sub_is.
  rewrite !orb_true_iff, andb_true_iff, !str_eqb_eq, C52_json_types, C52_xml_types. tauto.
Qed.
Theorem C52_equivalence_is_reflexive : forall c, is_equivalent_to c c = true.
Proof.
  intro c. unfold is_equivalent_to. destruct (is_strict_xml c && is_strict_xml c).
  - rewrite (proj2 (list_eqb_eq _ _ attr_eqb_eq _ _) eq_refl). apply orb_true_r.
  - destruct (attributes c) eqn:A; cbn [nonempty negb]; [rewrite !str_eqb_refl; reflexivity | apply ct_eqb_eq; reflexivity].
Qed.
(** Content types that say more than the expected one are accepted. *)
Theorem C52_attributes_not_expected : forall c attrs, attributes c = [] ->
  is_equivalent_to c (mkCT (main_type c) (sub_type c) attrs (suffix c)) = true.
Proof.
  intros c attrs A. unfold is_equivalent_to. rewrite A. cbn [nonempty negb]. rewrite orb_true_l.
  destruct (_ && _); [reflexivity|]. cbn [main_type sub_type]. rewrite !str_eqb_refl. reflexivity.
Qed.
Theorem C52_attributes_expected : forall c d, attributes c <> [] -> is_equivalent_to c d = true ->
  attributes c = attributes d.
Proof.
  intros c d A H. unfold is_equivalent_to in H. assert (negb (nonempty (attributes c)) = false) as E by (destruct (attributes c); [congruence | reflexivity]).
  rewrite E in H. destruct (_ && _).
  - apply (list_eqb_eq _ _ attr_eqb_eq) in H. exact H.
  - apply ct_eqb_eq in H. congruence.
Qed.
(** Equivalence is not symmetric, and the suffix is not looked at. *)
Theorem C52_not_symmetric :
  exists c d, is_equivalent_to c d = true /\ is_equivalent_to d c = false.
Proof.
  exists (mkCT (S_ "text") (S_ "plain") [] None), (mkCT (S_ "text") (S_ "plain") [(S_ "charset", S_ "utf-8")] None). split; reflexivity.
Qed.
Theorem C52_suffix_ignored :
  exists c d, json_type c /\ ~ json_type d /\ xml_type d /\ is_equivalent_to c d = true.
Proof.
  exists (mkCT (S_ "application") (S_ "hal") [] (Some (S_ "json"))), (mkCT (S_ "application") (S_ "hal") [] (Some (S_ "xml"))).
  split; [|split; [|split]].
  - apply C52_json_types. reflexivity.
  - intro H. apply C52_json_types in H. discriminate.
  - apply C52_xml_types. reflexivity.
  - reflexivity.
Qed.

(** ** C50: whether there is a body *)
Section Bodies.
Variable w : world.
Variable x : externals.
(** The types declared or found for the two bodies can be compared. *)
Definition comparable (e a : part) (hc : context) : Prop :=
  content_types_compatible w (part_content_type w x e) (part_content_type w x a) hc = true.
Theorem C50_any_body_if_none_is_expected : forall e a c hc, part_body e = BMissing -> match_body w x e a c hc = Ok BodyOk.
Proof.
  intros e a c hc B. unfold match_body, match_body_content. rewrite B. cbn [body_present]. destruct (content_types_compatible _ _ _ _); reflexivity.
Qed.
Theorem C50_expected_empty : forall e a c hc, part_body e = BEmpty \/ part_body e = BNull -> comparable e a hc ->
  (match_body w x e a c hc = Ok BodyOk <-> body_present (part_body a) = false).
Proof.
  intros e a c hc B C. unfold comparable in C. unfold match_body, match_body_content. rewrite C.
  destruct B as [-> | ->]; destruct (part_body a); cbn [body_present]; split; congruence || discriminate.
Qed.
Theorem C50_expected_present : forall e a c hc, body_present (part_body e) = true ->
  part_body a = BMissing \/ part_body a = BEmpty ->
  exists b, match_body w x e a c hc = Ok b /\ b <> BodyOk /\ body_mismatches b <> [].
Proof.
  intros e a c hc P B. unfold match_body, match_body_content. destruct (part_body e) as [| | |eb ct h]; try discriminate. cbn [body_present].
  destruct (content_types_compatible _ _ _ _); [|exists BodyTypeMismatch; repeat split; discriminate].
  destruct B as [-> | ->]; eexists; (split; [reflexivity | split; discriminate]).
Qed.
Theorem C50_types_differ : forall e a c hc, body_present (part_body e) = true -> ~ comparable e a hc ->
  match_body w x e a c hc = Ok BodyTypeMismatch.
Proof.
  intros e a c hc P C. unfold match_body, comparable in *. destruct (content_types_compatible _ _ _ _); [contradiction C; reflexivity|].
  rewrite P. reflexivity.
Qed.
(** If the types cannot be compared, an expected empty body accepts any body. *)
Theorem C50_types_differ_and_nothing_expected : forall e a c hc, body_present (part_body e) = false -> ~ comparable e a hc ->
  match_body w x e a c hc = Ok BodyOk.
Proof.
  intros e a c hc P C. unfold match_body, comparable in *. destruct (content_types_compatible _ _ _ _); [contradiction C; reflexivity|].
  rewrite P. reflexivity.
Qed.
Theorem C50_why_comparable : forall c, exists e a hc,
  part_body e = BEmpty /\ body_present (part_body a) = true /\ match_body w (mkExt (fun s => if str_eqb s (S_ "text/plain") then Some (mkCT (S_ "text") (S_ "plain") [] None) else None)
    (detect_text x) (detect_bytes x) (json_of_bytes x) (form_of_bytes x) (bytes_content_type_ok x) (match_xml x) (match_multipart x)) e a c hc = Ok BodyOk.
Proof.
  intro c. exists (mkPart (Some [(S_ "Content-Type", [S_ "text/plain"])]) BEmpty),
    (mkPart None (BPresent (S_ "{}") (Some (mkCT (S_ "application") (S_ "json") [] None)) None)), (mkCtx false (mkCat CHeader [])).
  split; [reflexivity|]. split; [reflexivity|]. vm_compute. reflexivity.
Qed.

Lemma compatible_same : forall ct hc, content_types_compatible w ct ct hc = true.
Proof. intros ct hc. unfold content_types_compatible. rewrite C52_equivalence_is_reflexive. rewrite !orb_true_r. reflexivity. Qed.
Lemma body_ok_iff : forall ms : list mismatch,
  @Ok body_result unit match ms with [] => BodyOk | _ => BodyMismatches (group_mismatches ms []) end = Ok BodyOk <-> ms = [].
Proof. intros [|m ms]; split; intro H; try reflexivity; discriminate. Qed.

(** JSON bodies. *)
Theorem C48_json_body : forall e a c hc eb ect eh ab act ah je ja, no_rules c ->
  part_body e = BPresent eb ect eh -> part_body a = BPresent ab act ah ->
  json_type (part_content_type w x e) -> part_content_type w x a = part_content_type w x e ->
  json_of_bytes x eb = Some je -> json_of_bytes x ab = Some ja -> json_wf je -> json_wf ja ->
  (match_body w x e a c hc = Ok BodyOk <-> agrees (allow c) je ja).
Proof.
  intros e a c hc eb ect eh ab act ah je ja NR Be Ba JT CT Je Ja We Wa.
  unfold match_body. rewrite CT, compatible_same. unfold match_body_content. rewrite Be, Ba.
  unfold compare_bodies, compare_bodies_core. apply C52_json_types in JT. rewrite JT. cbn [bind].
  unfold match_json, body_bytes. rewrite Be, Ba. cbn [body_value]. rewrite Je, Ja. rewrite body_ok_iff. apply compare_no_rules; assumption.
Qed.
(** A JSON body that cannot be read is a mismatch. *)
Theorem C48_unreadable_json : forall e a c hc eb ect eh ab act ah,
  part_body e = BPresent eb ect eh -> part_body a = BPresent ab act ah ->
  json_type (part_content_type w x e) -> part_content_type w x a = part_content_type w x e ->
  json_of_bytes x eb = None \/ json_of_bytes x ab = None ->
  match_body w x e a c hc <> Ok BodyOk.
Proof.
  intros e a c hc eb ect eh ab act ah Be Ba JT CT J.
  unfold match_body. rewrite CT, compatible_same. unfold match_body_content. rewrite Be, Ba.
  unfold compare_bodies, compare_bodies_core. apply C52_json_types in JT. rewrite JT. cbn [bind].
  unfold match_json, body_bytes. rewrite Be, Ba. cbn [body_value]. rewrite body_ok_iff.
  destruct J as [-> | ->]; [destruct (json_of_bytes x ab) | destruct (json_of_bytes x eb)]; discriminate.
Qed.

(** ** C51: bodies compared byte by byte *)
(** The content types that have no comparison of their own. *)
Definition other_type (ct : content_type) : Prop :=
  ~ json_type ct /\ ~ xml_type ct /\ main_type ct <> S_ "multipart" /\
  parse_mime x (S_ "application/x-www-form-urlencoded") <> Some (base_type ct).
Lemma bool_false : forall b, b <> true -> b = false.
Proof. intros []; congruence. Qed.
Lemma ct_is_iff : forall ct s, ct_is x ct s = true <-> parse_mime x s = Some ct.
Proof. intros ct s. unfold ct_is. destruct (parse_mime x s) as [v|]; [rewrite ct_eqb_eq|]; split; congruence. Qed.
Lemma other_core : forall ct e a c, other_type ct ->
  compare_bodies_core w x ct e a c =
  if is_binary ct || ct_is x (base_type ct) (S_ "application/octet-stream") then match_octet_stream w x (part_body e) (part_body a) c
  else if ctx_matcher_is_defined c path_root && existsb is_content_type_rule (rl_rules (ctx_select_best c path_root)) then
    match_octet_stream w x (part_body e) (part_body a) c
  else Ok (match_text w (body_value (part_body e)) (body_value (part_body a)) c).
Proof.
  intros ct e a c [J [X [M F]]]. unfold compare_bodies_core.
  rewrite (bool_false (is_json ct)) by (rewrite C52_json_types; exact J).
  rewrite (bool_false (is_xml ct)) by (rewrite C52_xml_types; exact X).
  rewrite (bool_false (main_is ct _)) by (unfold main_is; rewrite str_eqb_eq; exact M).
  rewrite (bool_false (ct_is x (base_type ct) (S_ "application/x-www-form-urlencoded"))) by (rewrite ct_is_iff; exact F). reflexivity.
Qed.
Ltac root_accepts := change (accepts [TRoot] [S_ "$"]); repeat constructor.
Theorem C51_same_bytes : forall e a c hc eb ect eh ab act ah, no_rules c ->
  part_body e = BPresent eb ect eh -> part_body a = BPresent ab act ah ->
  other_type (part_content_type w x e) -> part_content_type w x a = part_content_type w x e ->
  (match_body w x e a c hc = Ok BodyOk <-> eb = ab).
Proof.
  intros e a c hc eb ect eh ab act ah NR Be Ba OT CT.
  unfold match_body. rewrite CT, compatible_same. unfold match_body_content. rewrite Be, Ba.
  unfold compare_bodies. rewrite other_core by exact OT.
  rewrite (no_rules_undefined c path_root NR). cbn [andb].
  unfold match_octet_stream, match_text. rewrite (no_rules_undefined c path_root NR), Be, Ba. unfold body_bytes. cbn [body_value opt_bytes_eqb opt_str_eqb].
  assert (forall b : bool, (if b then @Ok (list mismatch) unit (if str_eqb eb ab then [] else [root_mm KNotEqual]) else Ok (if str_eqb eb ab then [] else [root_mm KNotEqual])) =
    Ok (if str_eqb eb ab then [] else [root_mm KNotEqual])) as IF by (intros []; reflexivity).
  unfold opt_bytes_eqb, opt_str_eqb. rewrite IF. cbn [bind]. rewrite body_ok_iff.
  destruct (str_eqb_spec eb ab); split; intro H; try reflexivity; try discriminate; congruence.
Qed.
(** Text with a rule list for the whole body. *)
Theorem C51_text_rule : forall e a c hc eb ect eh ab act ah rl es as_, only_rule c path_root rl -> rl_rules rl <> [] ->
  existsb is_content_type_rule (rl_rules rl) = false ->
  part_body e = BPresent eb ect eh -> part_body a = BPresent ab act ah ->
  other_type (part_content_type w x e) -> main_type (part_content_type w x e) = S_ "text" ->
  parse_mime x (S_ "application/octet-stream") <> Some (base_type (part_content_type w x e)) ->
  part_content_type w x a = part_content_type w x e ->
  from_utf8 eb = Some es -> from_utf8 ab = Some as_ ->
  (match_body w x e a c hc = Ok BodyOk <->
   combined (rl_logic rl) (rl_rules rl) (fun r => str_matches w es as_ r false = true)).
Proof.
  intros e a c hc eb ect eh ab act ah rl es as_ O NE NCT Be Ba OT T NB CT Ue Ua.
  unfold match_body. rewrite CT, compatible_same. unfold match_body_content. rewrite Be, Ba.
  unfold compare_bodies. rewrite other_core by exact OT.
  assert (is_binary (part_content_type w x e) = false) as ->.
  { rewrite C52_text_or_binary. apply negb_false_iff, C52_text_types. left. exact T. }
  rewrite (bool_false (ct_is x (base_type _) _)) by (rewrite ct_is_iff; exact NB). cbn [orb].
  assert (accepts (path_tokens path_root) (to_vec path_root)) as AC by root_accepts.
  assert (ctx_matcher_is_defined c path_root = true) as D by (eapply single_defined; eauto; cbn; lia).
  assert (ctx_select_best c path_root = as_cascaded rl false) as B by (rewrite (single_best c path_root rl O ltac:(cbn; lia) path_root AC); reflexivity).
  rewrite D, B. change (rl_rules (as_cascaded rl false)) with (rl_rules rl). rewrite NCT. cbn [andb bind].
  unfold match_text. rewrite D, B, Be, Ba. cbn [body_value text_of]. unfold text_of. rewrite Ue, Ua. cbn [fst snd app].
  rewrite body_ok_iff. change (rl_logic rl) with (rl_logic (as_cascaded rl false)).
  assert (combined (rl_logic (as_cascaded rl false)) (rl_rules rl) (fun r => str_matches w es as_ r false = true) <->
    match_values (str_matches w es as_) (as_cascaded rl false) = []) as -> by (symmetry; apply (values_combined _ (as_cascaded rl false)); exact NE).
  split; [apply map_eq_nil | intros ->; reflexivity].
Qed.
(** Comparing different binary bodies with an equality rule panics if one is shorter than ten bytes. *)
Theorem C51_short_body_panics : forall e a c hc eb ect eh ab act ah logic_, only_rule c path_root (mkRules [REquality] logic_ false) ->
  part_body e = BPresent eb ect eh -> part_body a = BPresent ab act ah ->
  other_type (part_content_type w x e) -> is_binary (part_content_type w x e) = true ->
  part_content_type w x a = part_content_type w x e -> eb <> ab ->
  (match_body w x e a c hc = Panic <-> (length eb < 10 \/ length ab < 10)%nat).
Proof.
  intros e a c hc eb ect eh ab act ah lg O Be Ba OT BI CT NE.
  unfold match_body. rewrite CT, compatible_same. unfold match_body_content. rewrite Be, Ba.
  unfold compare_bodies. rewrite other_core by exact OT. rewrite BI. cbn [orb].
  set (rl := mkRules [REquality] lg false) in *.
  assert (accepts (path_tokens path_root) (to_vec path_root)) as AC by root_accepts.
  assert (ctx_matcher_is_defined c path_root = true) as D by (eapply single_defined; eauto; cbn; lia).
  assert (ctx_select_best c path_root = rl) as B by (rewrite (single_best c path_root rl O ltac:(cbn; lia) path_root AC); reflexivity).
  unfold match_octet_stream. rewrite D, B, Be, Ba. unfold body_bytes. cbn [body_value]. unfold rl. cbn [rl_is_empty rl_rules failed_rules bytes_matches rl_cascaded].
  destruct (str_eqb_spec eb ab) as [->|N]; [congruence|]. unfold short.
  destruct (Nat.ltb_spec (length eb) 10), (Nat.ltb_spec (length ab) 10); cbn [orb bind]; (split; [intro H'; try (destruct lg; discriminate H'); auto | intro H'; try reflexivity; lia]).
Qed.

(** ** C53: forms *)
(** The values of a field, in order. *)
Definition field_values (k : str) (l : list (str * str)) : list str := map snd (filter (fun kv => str_eqb (fst kv) k) l).
Definition add_field (k v : str) (m : query_map) : query_map :=
  match obj_get k m with Some vs => sm_insert k (vs ++ [Some v]) m | None => m ++ [(k, [Some v])] end.
Lemma add_field_get : forall k' v m k, obj_get k (add_field k' v m) =
  if str_eqb k k' then Some ((match obj_get k m with Some o => o | None => [] end) ++ [Some v]) else obj_get k m.
Proof.
  intros k' v m k. unfold add_field. destruct (obj_get k' m) as [vs|] eqn:G.
  - etransitivity; [apply sm_insert_get|]. destruct (str_eqb_spec k k') as [->|N]; [rewrite G; reflexivity | reflexivity].
  - induction m as [|[j u] m IHm]; cbn [app obj_get] in *.
    + destruct (str_eqb k k'); reflexivity.
    + destruct (str_eqb k' j) eqn:J; [discriminate|]. specialize (IHm G). destruct (str_eqb_spec k j) as [->|N]; [|exact IHm].
      destruct (str_eqb_spec j k') as [->|N]; [rewrite str_eqb_refl in J; discriminate | reflexivity].
Qed.
Lemma group_pairs_get : forall l m k, obj_get k (group_pairs l m) =
  match field_values k l with
  | [] => obj_get k m
  | vs => Some ((match obj_get k m with Some o => o | None => [] end) ++ map Some vs)
  end.
Proof.
  induction l as [|[k' v] l IH]; intros m k; [reflexivity|]. cbn [group_pairs]. fold (add_field k' v m). rewrite IH. unfold field_values. cbn [filter fst].
  rewrite add_field_get. destruct (str_eqb_spec k' k) as [->|N].
  - rewrite str_eqb_refl. cbn [map snd]. fold (field_values k l). destruct (field_values k l) as [|u vs]; [reflexivity|]. cbn [map]. rewrite <- app_assoc. reflexivity.
  - destruct (str_eqb_spec k k') as [->|N']; [congruence | reflexivity].
Qed.
Lemma group_pairs_nodup : forall l m, NoDup (map fst m) -> NoDup (map fst (group_pairs l m)).
Proof.
  induction l as [|[k v] l IH]; intros m ND; [exact ND|]. cbn [group_pairs]. apply IH. destruct (obj_get k m) as [vs|] eqn:G.
  - apply sm_insert_nodup, ND.
  - rewrite map_app. cbn [map fst]. apply (Permutation_NoDup (Permutation_cons_append (map fst m) k)). constructor; [|exact ND].
    intro I. apply in_map_iff in I as [[j u] [E I]]. cbn [fst] in E. subst j.
    rewrite (obj_get_nodup _ _ _ _ ND I) in G. discriminate.
Qed.

Theorem C53_forms : forall e a c hc eb ect eh ab act ah ef af, no_rules c ->
  part_body e = BPresent eb ect eh -> part_body a = BPresent ab act ah ->
  form_type (part_content_type w x e) -> suffix (part_content_type w x e) = None -> part_content_type w x a = part_content_type w x e ->
  parse_mime x (S_ "application/x-www-form-urlencoded") = Some (base_type (part_content_type w x e)) ->
  form_of_bytes x eb = Some ef -> form_of_bytes x ab = Some af ->
  (match_body w x e a c hc = Ok BodyOk <-> forall k, field_values k ef = field_values k af).
Proof.
  intros e a c hc eb ect eh ab act ah ef af NR Be Ba FT NS CT PM Fe Fa.
  unfold match_body. rewrite CT, compatible_same. unfold match_body_content. rewrite Be, Ba.
  unfold compare_bodies, compare_bodies_core. destruct FT as [FM FS]. set (ct := part_content_type w x e) in *.
  assert (is_json ct = false) as ->.
  { unfold is_json, main_is, sub_is, suffix_is. rewrite FM, FS, NS. reflexivity. }
  assert (is_xml ct = false) as -> by (unfold is_xml, main_is, sub_is, suffix_is; rewrite FM, FS, NS; reflexivity).
  assert (main_is ct (S_ "multipart") = false) as -> by (unfold main_is; rewrite FM; reflexivity).
  rewrite (proj2 (ct_is_iff (base_type ct) _) PM). cbn [bind]. rewrite body_ok_iff.
  unfold match_form_urlencoded. rewrite Be, Ba. unfold body_bytes. cbn [body_value]. rewrite Fe, Fa.
  assert (forall r : list (str * list mismatch),
    flat_map (fun kv => map (fun m => mkMM (S_ "$." ++ mm_path m) (mm_kind m)) (snd kv)) r = [] <-> matched r) as FM2.
  { intro r. rewrite <- flat_matched. induction r as [|[k l] r IH]; [tauto|]. cbn [flat_map snd]. split; intro H;
      apply app_eq_nil in H as [H1 H2]; apply IH in H2; rewrite H2; [apply map_eq_nil in H1|]; rewrite H1; reflexivity. }
  rewrite FM2. pose proof (C23_query_without_rules w (Some (group_pairs ef [])) (Some (group_pairs af [])) c NR
    (group_pairs_nodup ef [] (NoDup_nil _)) (group_pairs_nodup af [] (NoDup_nil _))) as Q. cbn [match_query] in Q. rewrite Q.
  unfold same_query, params_of.
  assert (forall l k, match entry k (group_pairs l []) with Some vs => Some (map text_value vs) | None => None end =
    match field_values k l with [] => None | vs => Some vs end) as EN.
  { intros l k. rewrite (entry_get _ k (group_pairs l [])), group_pairs_get. cbn [obj_get app]. destruct (field_values k l) as [|v vs]; [reflexivity|].
    rewrite map_map. f_equal. apply map_id. }
  split; intros H k; specialize (H k).
  - rewrite !EN in H. destruct (field_values k ef), (field_values k af); congruence.
  - rewrite !EN, H. reflexivity.
Qed.
End Bodies.

(** ** C48: whole requests without rules *)
Lemma part_headers_no_rules : forall w E A c, cat_rules (matchers c) = [] ->
  part_unique (to_lower w) A -> part_readable (is_space w) (to_lower w) E -> part_readable (is_space w) (to_lower w) A ->
  (matched (match_headers w E A c) <-> part_headers_agree (is_space w) (to_lower w) E A).
Proof.
  intros w [E|] [A|] c NR U RE RA; cbn [part_headers_agree part_unique part_readable] in *.
  - apply C21_without_rules; assumption.
  - apply C21_missing_header_maps.
    exact None.
  - split; [trivial|]. intros _. apply (C21_missing_header_maps w [] (Some A) c).
  - split; [trivial|]. intros _. apply (C21_missing_header_maps w [] None c).
Qed.
Theorem C48_request_without_rules : forall w x e a r, req_rules e = [] ->
  one_entry_each (req_query e) -> one_entry_each (req_query a) ->
  part_unique (to_lower w) (req_headers a) ->
  part_readable (is_space w) (to_lower w) (req_headers e) -> part_readable (is_space w) (to_lower w) (req_headers a) ->
  match_request w x e a = Ok r ->
  (all_matched r = true <->
   to_lower w (req_method e) = to_lower w (req_method a) /\
   req_path e = req_path a /\
   same_query (req_query e) (req_query a) /\
   part_headers_agree (is_space w) (to_lower w) (req_headers e) (req_headers a) /\
   match_body w x (req_part e) (req_part a) (mkCtx false (mkCat CBody [])) (mkCtx false (mkCat CBody [])) = Ok BodyOk).
Proof.
  intros w x e a r R Qe Qa U RE RA H. rewrite (C24_matched_iff_every_part_matches w x e a r H). rewrite R. cbn [rules_for].
  rewrite C25_any_text. pose proof (proj1 (C47_path w (req_path e) (req_path a) (mkCtx false (cat_empty CBody))) eq_refl) as P. rewrite P.
  rewrite (C23_query_without_rules w _ _ (mkCtx false (cat_empty CBody)) eq_refl Qe Qa).
  rewrite (part_headers_no_rules w _ _ (header_context w (mkCtx false (cat_empty CBody))) eq_refl U RE RA).
  reflexivity.
Qed.
(** A request without rules and with a JSON body. *)
Theorem C48_json_request : forall w x e a r eb ect eh ab act ah je ja, req_rules e = [] ->
  one_entry_each (req_query e) -> one_entry_each (req_query a) ->
  part_unique (to_lower w) (req_headers a) ->
  part_readable (is_space w) (to_lower w) (req_headers e) -> part_readable (is_space w) (to_lower w) (req_headers a) ->
  req_body e = BPresent eb ect eh -> req_body a = BPresent ab act ah ->
  json_type (part_content_type w x (req_part e)) -> part_content_type w x (req_part a) = part_content_type w x (req_part e) ->
  json_of_bytes x eb = Some je -> json_of_bytes x ab = Some ja -> json_wf je -> json_wf ja ->
  match_request w x e a = Ok r ->
  (all_matched r = true <->
   to_lower w (req_method e) = to_lower w (req_method a) /\
   req_path e = req_path a /\
   same_query (req_query e) (req_query a) /\
   part_headers_agree (is_space w) (to_lower w) (req_headers e) (req_headers a) /\
   agrees false je ja).
Proof.
  intros w x e a r eb ect eh ab act ah je ja R Qe Qa U RE RA Be Ba JT CT Je Ja We Wa H.
  rewrite (C48_request_without_rules w x e a r R Qe Qa U RE RA H).
  rewrite (C48_json_body w x (req_part e) (req_part a) (mkCtx false (mkCat CBody [])) _ eb ect eh ab act ah je ja); try assumption; reflexivity.
Qed.
(** The comparison of such requests always ends with a result. *)
Theorem C48_total : forall w x e a, req_rules e = [] -> exists r, match_request w x e a = Ok r.
Proof.
  intros w x e a R. unfold match_request. rewrite R. unfold ctx_for. cbn [rules_for].
  set (c := mkCtx false (cat_empty CBody)). set (hc := header_context w c).
  assert (no_rules c) as NR by reflexivity.
  assert (exists b, match_body w x (req_part e) (req_part a) c hc = Ok b) as [b ->]; [|eexists; reflexivity].
  assert (forall ct e a, exists b, compare_bodies w x ct e a c = Ok b) as CB.
  { intros ct e' a'. unfold compare_bodies. assert (exists ms, compare_bodies_core w x ct e' a' c = Ok ms) as [ms ->]; [|eexists; reflexivity].
    unfold compare_bodies_core, match_octet_stream. rewrite !(no_rules_undefined c path_root NR). cbn [andb].
    repeat match goal with |- exists _, (if ?b then _ else _) = _ => destruct b end; eexists; reflexivity. }
  unfold match_body. destruct (content_types_compatible _ _ _ _); [|destruct (body_present _); eexists; reflexivity].
  unfold match_body_content, body_problem. destruct (part_body (req_part e)), (part_body (req_part a)); try (eexists; reflexivity); apply CB.
Qed.

(** ** C49: whole responses without rules *)
Theorem C49_response_without_rules : forall w x e a ms, resp_rules e = [] ->
  part_unique (to_lower w) (resp_headers a) ->
  part_readable (is_space w) (to_lower w) (resp_headers e) -> part_readable (is_space w) (to_lower w) (resp_headers a) ->
  match_response w x e a = Ok ms ->
  (ms = [] <->
   resp_status e = resp_status a /\
   part_headers_agree (is_space w) (to_lower w) (resp_headers e) (resp_headers a) /\
   match_body w x (resp_part e) (resp_part a) (mkCtx true (mkCat CBody [])) (mkCtx false (mkCat CBody [])) = Ok BodyOk).
Proof.
  intros w x e a ms R U RE RA H. unfold match_response in H. rewrite R in H. unfold ctx_for in H. cbn [rules_for] in H.
  rewrite <- (part_headers_no_rules w _ _ (header_context w (mkCtx false (cat_empty CBody))) eq_refl U RE RA), <- flat_matched.
  change (mkCtx false (mkCat CBody [])) with (header_context w (mkCtx false (cat_empty CBody))).
  change (mkCtx true (mkCat CBody [])) with (mkCtx true (cat_empty CBody)).
  destruct (match_body w x _ _ _ _) as [b| |] eqn:B; try discriminate. cbn [bind] in H. injection H as <-.
  pose proof (match_body_groups _ _ _ _ _ _ _ B) as G.
  assert (body_mismatches b = [] <-> @Ok body_result unit b = Ok BodyOk) as BM.
  { destruct b as [| |g]; cbn in *; try (split; [discriminate | intro E; discriminate]); [tauto|]. split; [|discriminate].
    intro E. apply map_eq_nil in E. contradiction. }
  assert (match_status w (resp_status e) (resp_status a) (cat_empty CBody) = [] <-> resp_status e = resp_status a) as ST.
  { unfold match_status. cbn. destruct (N.eqb_spec (resp_status e) (resp_status a)); split; congruence. }
  rewrite <- BM, <- ST. split.
  - intro E. apply app_eq_nil in E as [E1 E]. apply app_eq_nil in E as [E2 E3]. apply map_eq_nil in E2, E3. auto.
  - intros [-> [-> ->]]. reflexivity.
Qed.
Theorem C49_json_response : forall w x e a ms eb ect eh ab act ah je ja, resp_rules e = [] ->
  part_unique (to_lower w) (resp_headers a) ->
  part_readable (is_space w) (to_lower w) (resp_headers e) -> part_readable (is_space w) (to_lower w) (resp_headers a) ->
  resp_body e = BPresent eb ect eh -> resp_body a = BPresent ab act ah ->
  json_type (part_content_type w x (resp_part e)) -> part_content_type w x (resp_part a) = part_content_type w x (resp_part e) ->
  json_of_bytes x eb = Some je -> json_of_bytes x ab = Some ja -> json_wf je -> json_wf ja ->
  match_response w x e a = Ok ms ->
  (ms = [] <->
   resp_status e = resp_status a /\
   part_headers_agree (is_space w) (to_lower w) (resp_headers e) (resp_headers a) /\
   agrees true je ja).
Proof.
  intros w x e a ms eb ect eh ab act ah je ja R U RE RA Be Ba JT CT Je Ja We Wa H.
  rewrite (C49_response_without_rules w x e a ms R U RE RA H).
  rewrite (C48_json_body w x (resp_part e) (resp_part a) (mkCtx true (mkCat CBody [])) _ eb ect eh ab act ah je ja); try assumption; reflexivity.
Qed.

(** ** C56: the score of a comparison *)
(** Matching parts less mismatching parts: method, path, every query parameter and every
    header that was compared, and every place of the body with a mismatch. *)
Definition method_points (b : bool) : Z := if b then 1%Z else (-1)%Z.
Definition body_points (b : body_result) : Z :=
  match b with BodyOk => 0 | BodyTypeMismatch => -1 | BodyMismatches g => count_ok g - count_bad g end%Z.
Definition fair_score (r : request_result) : Z :=
  (method_points (r_method r) + method_points (is_none (r_path r)) + (count_ok (r_query r) - count_bad (r_query r)) +
   (count_ok (r_headers r) - count_bad (r_headers r)) + body_points (r_body r))%Z.
Definition parts_compared (r : request_result) : nat :=
  (2 + length (r_query r) + length (r_headers r) + match r_body r with BodyOk => 0 | BodyTypeMismatch => 1 | BodyMismatches g => length g end)%nat.
Lemma points_sum : forall g, sum (points g) = (count_ok g - count_bad g)%Z.
Proof.
  induction g as [|[k [|m l]] g IH]; [reflexivity| |]; cbn [points map sum fold_right snd is_nil nonempty negb point count_ok count_bad] in *;
    unfold sum, points in IH; cbn [is_nil nonempty negb] in *; unfold is_nil in *; cbn [nonempty negb point] in *; rewrite IH; lia.
Qed.
Lemma sum_app : forall a b, sum (a ++ b) = (sum a + sum b)%Z.
Proof. induction a as [|z a IH]; intro b; [reflexivity|]. cbn [app]. unfold sum in *. cbn [fold_right]. rewrite IH. apply Z.add_assoc. Qed.
Lemma steps_sum : forall r, sum (score_steps r) = fair_score r.
Proof.
  intro r. unfold score_steps, fair_score. rewrite !sum_app, !points_sum.
  assert (forall b, sum [point b] = method_points b) as P by (intros []; reflexivity). rewrite !P.
  destruct (r_body r); cbn [body_points]; rewrite ?points_sum; cbn; lia.
Qed.
Lemma steps_unit : forall r, Forall (fun d => d = 1 \/ d = -1)%Z (score_steps r).
Proof.
  assert (forall b, point b = 1 \/ point b = -1)%Z as P by (intros []; auto).
  assert (forall g, Forall (fun d => d = 1 \/ d = -1)%Z (points g)) as PG by (induction g; constructor; auto).
  intro r. unfold score_steps. rewrite !Forall_app. repeat split; auto. destruct (r_body r); auto.
Qed.
Lemma steps_length : forall r, length (score_steps r) = parts_compared r.
Proof.
  assert (forall g, length (points g) = length g) as P by (intro; apply map_length).
  intro r. unfold score_steps, parts_compared. rewrite !app_length, !P. destruct (r_body r); cbn [length]; rewrite ?P; lia.
Qed.
Lemma wrap_id : forall z, (-128 <= z <= 127)%Z -> wrap8 z = z.
Proof. intros z H. unfold wrap8. rewrite Z.mod_small; lia. Qed.
Lemma score_go : forall l s, Forall (fun d => d = 1 \/ d = -1)%Z l -> (Z.abs s + Z.of_nat (length l) <= 127)%Z ->
  fold_left (fun s d => wrap8 (s + d)%Z) l s = (s + sum l)%Z /\
  fold_left (fun s d => bind s (fun s => if fits8 (s + d)%Z then Ok (s + d)%Z else Panic)) l (Ok s) = @Ok Z unit (s + sum l)%Z.
Proof.
  induction l as [|d l IH]; intros s F B; [cbn; rewrite Z.add_0_r; auto|]. inversion F as [|? ? D F']; subst. cbn [fold_left length sum fold_right bind] in *.
  assert (Z.abs (s + d) + Z.of_nat (length l) <= 127)%Z as B' by lia.
  rewrite wrap_id by lia. assert (fits8 (s + d) = true) as -> by (unfold fits8; rewrite andb_true_iff, !Z.leb_le; lia).
  destruct (IH (s + d)%Z F' B') as [-> ->]. split; [|apply f_equal]; symmetry; apply Z.add_assoc.
Qed.
Theorem C56_score : forall r, (parts_compared r <= 127)%nat -> score r = fair_score r /\ score_debug r = Ok (fair_score r).
Proof.
  intros r B. rewrite <- steps_sum. unfold score, score_debug.
  destruct (score_go (score_steps r) 0%Z (steps_unit r)) as [-> ->]; [rewrite steps_length; change (Z.abs 0) with 0%Z; lia|]. split; reflexivity.
Qed.
(** With more parts the score overflows: a request with 130 matching headers scores below zero. *)
Lemma wrap_go : forall l s, fold_left (fun s d => wrap8 (s + d)%Z) l (wrap8 s) = wrap8 (s + sum l)%Z.
Proof.
  assert (W : forall s d, wrap8 (wrap8 s + d) = wrap8 (s + d)).
  { intros s d. unfold wrap8. f_equal. replace ((s + 128) mod 256 - 128 + d + 128)%Z with ((s + 128) mod 256 + d)%Z by lia.
    rewrite Zplus_mod_idemp_l. f_equal. lia. }
  induction l as [|d l IH]; intro s; cbn [fold_left sum fold_right]; [rewrite Z.add_0_r; reflexivity|].
  rewrite W, IH. unfold sum. f_equal. cbn [fold_right]. lia.
Qed.
(** In general the score is the sum of the points, kept in eight bits. *)
Theorem C56_score_in_eight_bits : forall r, (-128 <= score r <= 127)%Z /\ exists n, fair_score r = (score r + 256 * n)%Z.
Proof.
  intro r. unfold score. change 0%Z with (wrap8 0). rewrite wrap_go, steps_sum. rewrite Z.add_0_l. unfold wrap8.
  pose proof (Z.mod_pos_bound (fair_score r + 128) 256 ltac:(lia)). split; [lia|]. exists ((fair_score r + 128) / 256)%Z.
  pose proof (Z.div_mod (fair_score r + 128) 256 ltac:(lia)). lia.
Qed.
Theorem C56_why_127_parts : exists r, all_matched r = true /\ (score r < 0)%Z /\ score_debug r = Panic.
Proof.
  exists (mkRR true None BodyOk [] (repeat (S_ "h", []) 130)). split; [reflexivity|]. split; [vm_compute; reflexivity | vm_compute; reflexivity].
Qed.
Example C56_example : let r := mkRR true None BodyTypeMismatch [(S_ "q", [])] [(S_ "h", [mkMM [] KNotEqual])] in
  (parts_compared r <= 127)%nat /\ score r = 1%Z /\ fair_score r = 1%Z.
Proof. cbv zeta. split; [cbn; lia|]. split; vm_compute; reflexivity. Qed.
