(** C112: what a message described with the consumer DSL accepts; synchronous messages. *)
From Coq Require Import Ascii String List Arith NArith ZArith Lia Bool Permutation Sorted.
From Verif Require Import Base PathExp PathExpProofs SpecPath PropPath Json Text TextProofs MatchingRules RulesV2 SpecRules RulesProofs Matchers JsonCompare SpecMatch SpecValues
  CompareProofs CompareProofs2 SpecBody BodyProofs Headers Query ContentType SpecXml SpecQuery SpecHeaders SpecHttp Http QueryProofs PropHttp PropHttp2 PropHeaders Pattern SpecPattern PatternProofs PropPattern PropPattern2
  SpecParams PropParams PropParams2 PropXml Expr Generators SpecGenerators PropGenerators Builder SpecBuilder BuilderProofs BuilderProofs2 BuilderProofs3 BuilderProofs4 PropBuilder PropBuilder2
  Merge PactFile OldFile MessageBuilder PropMessage SpecMessageBuilder PropMessageBuilder.
Import ListNotations.
Open Scope N_scope.
Local Opaque show_N.

(** ** Adding rules to an empty category *)
Lemma merge_fresh : forall l m, NoDup (path_texts (m ++ l)) -> fold_left (fun m pr => hm_merge_one (fst pr) (snd pr) m) l m = m ++ l.
Proof.
  intro l. induction l as [|[p rl] l IH]; intros m H; [rewrite app_nil_r; reflexivity|]. cbn [fold_left fst snd].
  assert (hm_merge_one p rl m = m ++ [(p, rl)]) as ->.
  { unfold path_texts in H. rewrite map_app in H. cbn [map fst] in H. apply NoDup_remove_2 in H.
    assert (~ In (path_expr p) (map (fun pr : docpath * rulelist => path_expr (fst pr)) m)) as N by (intro J; apply H, in_or_app; left; exact J). clear H IH.
    induction m as [|[p0 rl0] m IHm]; [reflexivity|]. cbn [hm_merge_one app]. unfold path_eqb. destruct (str_eqb_spec (path_expr p) (path_expr p0)) as [E|_].
    - exfalso. apply N. left. symmetry. exact E.
    - f_equal. apply IHm. intro J. apply N. right. exact J. }
  rewrite IH; rewrite <- app_assoc; [reflexivity | exact H].
Qed.
Lemma add_to_empty : forall n c, NoDup (path_texts (cat_rules c)) -> cat_add_rules (cat_empty n) c = mkCat n (cat_rules c).
Proof. intros n c H. unfold cat_add_rules, cat_empty. cbn [cat_name cat_rules]. rewrite merge_fresh; [reflexivity | exact H]. Qed.
Lemma push_steps_nodup : forall l m R, NoDup (map fst m) -> describes m R -> NoDup (map fst (push_steps path_root m l)).
Proof.
  intro l. induction l as [|[t r] l IH]; intros m R ND D; [exact ND|]. unfold push_steps. cbn [fold_left fst snd].
  change path_root with (from_tokens [TRoot]). rewrite push_all_tokens. cbn [app]. destruct (hm_push_describes m R t r ND D) as [ND' D'].
  exact (IH _ _ ND' D').
Qed.
Lemma pattern_paths : forall p, proper p -> NoDup (path_texts (cat_rules (body_rules_of p))).
Proof.
  intros p Pr.
  assert (describes (cat_rules (body_rules_of p)) (rel p)) as [D1 _].
  { apply pattern_describes; [exact Pr|]. split; [|apply Permutation_refl]. unfold body_rules_of. rewrite (extract_rel p Pr). apply (add_all_name path_root (rel p) (cat_empty CBody)). }
  assert (NoDup (map fst (cat_rules (body_rules_of p)))) as ND.
  { unfold body_rules_of. rewrite (extract_rel p Pr), add_all_rules. apply (push_steps_nodup _ _ []); [constructor|]. split; [intros ? []|intros ? ? []]. }
  unfold path_texts. revert ND D1. generalize (cat_rules (body_rules_of p)). intro l. induction l as [|e l IH]; intros ND D1; [constructor|]. cbn [map] in *.
  inversion ND as [|? ? N1 N2]; subst. constructor; [|apply IH; [exact N2 | intros e0 J; apply D1; right; exact J]].
  intro J. apply in_map_iff in J as (e0 & E & J). apply N1. apply in_map_iff. exists e0. split; [|exact J].
  destruct (D1 e (or_introl eq_refl)) as (t & Et & _), (D1 e0 (or_intror J)) as (t0 & Et0 & _). rewrite Et, Et0 in *.
  f_equal. apply (proj1 (path_eqb_tokens (TRoot :: t0) (TRoot :: t))). unfold path_eqb. rewrite E. apply str_eqb_refl.
Qed.

Section Built.
Variable w : world.
Variable x : externals.
Notation sp := (is_space w).
Notation json_ct := (content_type_of x (S_ "application/json")).

(** ** One message *)
Lemma metadata_iff : forall e a c said, no_rules c -> NoDup (keys (msg_metadata e)) -> (forall k, entry k (msg_metadata e) = said k) ->
  readable_metadata sp (msg_metadata e) -> readable_metadata sp (msg_metadata a) ->
  (flat_map (fun kv => map (MMetadata (fst kv)) (snd kv)) (match_message_metadata w e a c) = [] <-> metadata_accepted w said (msg_metadata a)).
Proof.
  intros e a c said NR ND S RE RA. rewrite flat_metadata, (C54_metadata_without_rules w e a c NR RE RA). unfold metadata_agree, metadata_accepted.
  assert (K : forall k v, In (k, v) (msg_metadata e) <-> said k = Some v).
  { intros k v. rewrite <- S, entry_get. split; [apply obj_get_nodup, ND | apply obj_get_in]. }
  split; intros H k v J; apply H, K, J.
Qed.
Lemma contents_empty : forall l : list mismatch, body_mismatches (match l with [] => BodyOk | _ => BodyMismatches (group_mismatches l []) end) = [] <-> l = [].
Proof.
  intros [|m l]; [split; reflexivity|]. split; [|discriminate]. intro E. cbn [body_mismatches] in E. apply map_eq_nil in E.
  pose proof (group_perm (m :: l) []) as P. cbn [flat_map app] in P. rewrite E in P. apply Permutation_nil in P. discriminate.
Qed.
Lemma json_message_iff : forall p e a ms ab act ah ja said, proper p -> untied p -> (depth p <= 57)%nat ->
  msg_contents e = json_body_of w x p -> msg_contents a = BPresent ab act ah ->
  json_type json_ct -> Http.message_content_type w x a = json_ct ->
  json_of_bytes x (utf8 (json_show w (to_example p))) = Some (to_example p) -> json_of_bytes x ab = Some ja -> json_wf ja -> fits ja ->
  Permutation (cat_rules (body_rules_of p)) (cat_rules (rules_for CBody (msg_rules e))) ->
  (cat_name (rules_for CBody (msg_rules e)) = CBody \/ cat_rules (rules_for CBody (msg_rules e)) = []) ->
  cat_rules (rules_for CMetadata (msg_rules e)) = [] ->
  NoDup (keys (msg_metadata e)) -> (forall k, entry k (msg_metadata e) = said k) ->
  readable_metadata sp (msg_metadata e) -> readable_metadata sp (msg_metadata a) ->
  match_message w x e a = Ok ms ->
  (ms = [] <-> means w true false p ja /\ metadata_accepted w said (msg_metadata a)).
Proof.
  intros p e a ms ab act ah ja said Pr Un De Be Ba JT CT Je Ja Wa Fa P NM NR ND S RE RA M.
  unfold match_message in M. unfold ctx_for in M.
  assert (Http.message_content_type w x e = json_ct) as CTe by (unfold Http.message_content_type; rewrite Be; reflexivity).
  unfold match_message_contents in M. rewrite CT, CTe, C52_equivalence_is_reflexive in M. unfold msg_compare in M. rewrite Be, Ba in M. unfold json_body_of in M.
  apply C52_json_types in JT. rewrite JT in M. cbn [negb andb] in M. unfold match_body_content in M. cbn [msg_part part_body] in M. rewrite Be, Ba in M. unfold json_body_of in M.
  unfold compare_bodies, compare_bodies_core in M. rewrite JT in M. cbn [bind] in M. unfold match_json, body_bytes in M. cbn [msg_part part_body] in M. rewrite Be, Ba in M. unfold json_body_of in M.
  cbn [body_value] in M. rewrite Je, Ja in M. cbn [bind] in M. injection M as <-.
  rewrite <- (metadata_iff e a (mkCtx true (rules_for CMetadata (msg_rules e))) said NR ND S RE RA).
  assert (compare_json w path_root (to_example p) ja (mkCtx true (rules_for CBody (msg_rules e))) = [] <-> means w true false p ja) as <-.
  { destruct NM as [NM|NM].
    - apply C91_pattern_accepts_exactly; try assumption. split; [exact NM|exact P].
    - rewrite NM in P. apply Permutation_sym, Permutation_nil in P.
      assert (rules_of_pattern p (cat_empty CBody)) as R by (split; [reflexivity|]; rewrite P; apply Permutation_refl).
      rewrite <- (C91_pattern_accepts_exactly w true p _ ja Pr Un De R Wa Fa).
      rewrite (compare_no_rules w (mkCtx true (rules_for CBody (msg_rules e)))), (compare_no_rules w (mkCtx true (cat_empty CBody))); try assumption; try reflexivity; apply example_wf, Pr. }
  rewrite <- contents_empty. split; [apply app_eq_nil | intros [-> ->]; reflexivity].
Qed.
Lemma bytes_message_iff : forall e a ms eb ect eh ab act ah said,
  msg_contents e = BPresent eb ect eh -> msg_contents a = BPresent ab act ah ->
  other_type x (Http.message_content_type w x e) -> Http.message_content_type w x a = Http.message_content_type w x e ->
  cat_rules (rules_for CBody (msg_rules e)) = [] -> cat_rules (rules_for CMetadata (msg_rules e)) = [] ->
  NoDup (keys (msg_metadata e)) -> (forall k, entry k (msg_metadata e) = said k) ->
  readable_metadata sp (msg_metadata e) -> readable_metadata sp (msg_metadata a) ->
  match_message w x e a = Ok ms ->
  (ms = [] <-> ab = eb /\ metadata_accepted w said (msg_metadata a)).
Proof.
  intros e a ms eb ect eh ab act ah said Be Ba OT CT NB NR ND S RE RA M.
  unfold match_message, ctx_for in M. set (c := mkCtx true (rules_for CBody (msg_rules e))) in *. assert (no_rules c) as NRB by exact NB.
  unfold match_message_contents in M. rewrite CT, C52_equivalence_is_reflexive in M. unfold msg_compare in M. rewrite Be, Ba in M.
  assert (main_is (Http.message_content_type w x e) (S_ "multipart") = false) as MP.
  { unfold main_is. destruct (str_eqb_spec (main_type (Http.message_content_type w x e)) (S_ "multipart")) as [E|E]; [destruct OT as (_ & _ & Z & _); contradiction | reflexivity]. }
  rewrite MP, andb_false_r in M. unfold match_body_content in M. cbn [msg_part part_body] in M. rewrite Be, Ba in M.
  unfold compare_bodies in M. rewrite other_core in M by exact OT. rewrite (no_rules_undefined c path_root NRB) in M. cbn [andb] in M.
  unfold match_octet_stream, match_text in M. cbn [msg_part part_body] in M. rewrite (no_rules_undefined c path_root NRB), Be, Ba in M. unfold body_bytes in M. cbn [body_value opt_bytes_eqb opt_str_eqb] in M.
  assert (forall b : bool, (if b then @Ok (list mismatch) unit (if str_eqb eb ab then [] else [root_mm KNotEqual]) else Ok (if str_eqb eb ab then [] else [root_mm KNotEqual])) =
    Ok (if str_eqb eb ab then [] else [root_mm KNotEqual])) as IF by (intros []; reflexivity).
  unfold opt_bytes_eqb, opt_str_eqb in M. rewrite IF in M. cbn [bind] in M. injection M as <-.
  rewrite <- (metadata_iff e a (mkCtx true (rules_for CMetadata (msg_rules e))) said NR ND S RE RA).
  assert ((if str_eqb eb ab then [] else [root_mm KNotEqual]) = [] <-> ab = eb) as <- by (destruct (str_eqb_spec eb ab); split; congruence).
  rewrite <- contents_empty. split; [apply app_eq_nil | intros [-> ->]; reflexivity].
Qed.

(** ** The contents after the calls *)
Lemma since_contents : forall l m g, In (CContents m g) (since l) -> In m (whole_contents l).
Proof. intros l m g J. unfold whole_contents. apply in_flat_map. exists (CContents m g). split; [exact J | left; reflexivity]. Qed.
Lemma suffix_since : forall l c, In c (since l) -> In c l.
Proof.
  intro l. induction l as [|c0 l IH]; intros c; [intros []|]. cbn [since]. destruct (existsb _ l); [intro K; right; exact (IH c K)|].
  destruct (sets_everything c0); [intro K; right; exact K | intro K; exact K].
Qed.
Lemma since_bodies : forall l c l2 l1, since l = l1 ++ c :: l2 -> flat_map (body_said w x) l2 = [] -> body_said w x c <> [] ->
  last (flat_map (body_said w x) l) BMissing = last (body_said w x c) BMissing.
Proof.
  intro l. induction l as [|c0 l IH]; intros c l2 l1 E N NE; [cbn in E; destruct l1; discriminate|]. cbn [since] in E. cbn [flat_map].
  assert (L : forall (u v : list body), v <> [] -> last (u ++ v) BMissing = last v BMissing).
  { intros u v Hv. destruct (exists_last Hv) as (v' & b & ->). rewrite app_assoc, !last_last. reflexivity. }
  destruct (existsb sets_everything l) eqn:EX.
  - rewrite L; [exact (IH c l2 l1 E N NE)|]. apply existsb_exists in EX as (c1 & J & K). destruct c1; try discriminate.
    intro Z. assert (In b (flat_map (body_said w x) l)) as B by (apply in_flat_map; exists (CReset b); split; [exact J | left; reflexivity]). rewrite Z in B. destruct B.
  - destruct (sets_everything c0) eqn:E0.
    + subst l. rewrite flat_map_app. cbn [flat_map]. rewrite N, app_nil_r, app_assoc. apply L, NE.
    + change (body_said w x c0 ++ flat_map (body_said w x) l) with (flat_map (body_said w x) (c0 :: l)). rewrite E. rewrite flat_map_app. cbn [flat_map]. rewrite N, app_nil_r. apply L, NE.
Qed.
Lemma metadata_once_since : forall l, (forall m g, ~ In (CContents m g) l) -> metadata_once l.
Proof. intros l H m g J. destruct (H m g J). Qed.
(** Asynchronous contents never come from [CContents]. *)
Lemma no_contents : forall h m g, ~ In (CContents m g) (async_calls w x h).
Proof.
  intros h m g J. unfold async_calls in J. apply in_flat_map in J as (c & _ & J). destruct c; cbn in J; try (destruct J as [J|[]]; discriminate); try contradiction.
  apply in_map_iff in J as (? & J & _). discriminate.
Qed.
Lemma async_payload : forall d h i m g, build_async w x d h = Ok i -> f_payload i = FAsync (m, g) ->
  m = fst (async_contents (contents_after w x (async_calls w x h))).
Proof.
  intros d h i m g H F. unfold build_async in H. destruct (async_steps w x (about_start, contents_start) h) as [s| |] eqn:E; try discriminate.
  cbn [bind] in H. injection H as <-. cbn [f_payload] in F. apply async_state_after in E as [_ E2]. cbn [snd] in E2. rewrite E2 in F.
  unfold async_contents in F. unfold async_contents. cbn [fst]. injection F as <- <-. reflexivity.
Qed.
(** Rules in the category BODY of what is built from one category. *)
Lemma shuffled_one : forall e b n k f, shuffled b e -> b = with_category n f [] -> f (cat_empty n) = k ->
  Permutation (cat_rules k) (cat_rules (rules_for n e)) /\ cat_name (rules_for n e) = cat_name k /\
  forall n', n' <> n -> cat_rules (rules_for n' e) = [].
Proof.
  intros e b n k f S -> Ek. cbn [with_category] in S. rewrite Ek in S.
  destruct (shuffled_content _ _ n S) as [P N]. unfold content in P. cbn [rules_for] in P, N. rewrite cat_eqb_refl in P, N. split; [exact P|]. split; [symmetry; exact N|].
  intros n' Ne. destruct (shuffled_content _ _ n' S) as [P' _]. unfold content in P'. cbn [rules_for] in P'.
  destruct (cat_eqb n' n) eqn:E; [apply cat_eqb_true in E; contradiction|]. cbn [cat_empty cat_rules] in P'. apply Permutation_nil, P'.
Qed.
Lemma one_pattern : forall p, proper p -> cat_add_rules (cat_empty CBody) (cat_or CBody (add_pattern None p)) = mkCat CBody (cat_rules (body_rules_of p)).
Proof.
  intros p Pr. unfold add_pattern. destruct (cat_is_empty (body_rules_of p)) eqn:E.
  - unfold cat_is_empty in E. destruct (cat_rules (body_rules_of p)); [reflexivity | discriminate].
  - cbn [cat_or]. apply add_to_empty, pattern_paths, Pr.
Qed.
(** An asynchronous message with a JSON pattern as its body. *)
Theorem C112_async_json : forall d h i b g e a ms p ab act ah ja, build_async w x d h = Ok i -> f_payload i = FAsync (b, g) -> same_message b e ->
  pattern_given w x p (async_calls w x h) -> proper p -> untied p -> (depth p <= 57)%nat ->
  json_type json_ct -> json_of_bytes x (utf8 (json_show w (to_example p))) = Some (to_example p) ->
  msg_contents a = BPresent ab act ah -> Http.message_content_type w x a = json_ct -> json_of_bytes x ab = Some ja -> json_wf ja -> fits ja ->
  readable_metadata sp (msg_metadata e) -> readable_metadata sp (msg_metadata a) ->
  match_message w x e a = Ok ms ->
  (ms = [] <-> means w true false p ja /\ metadata_accepted w (metadata_said (async_calls w x h)) (msg_metadata a)).
Proof.
  intros d h i b g e a ms p ab act ah ja B F (E1 & E2 & E3) (G1 & G2 & l1 & l2 & G3 & G4) Pr Un De JT Je Ba CT Ja Wa Fa RE RA M.
  pose proof (async_payload d h i b g B F) as Eb. set (l := async_calls w x h) in *. unfold async_contents in Eb. cbn [fst] in Eb.
  destruct (rules_after w x l G2) as (R1 & R2 & _). rewrite G1 in R1. cbn [fold_left] in R1.
  destruct (metadata_after w x l (metadata_once_since l (no_contents h))) as [ND MD].
  destruct (shuffled_one (msg_rules e) (msg_rules b) CBody (cat_add_rules (cat_empty CBody) (cat_or CBody (cb_rules (contents_after w x l)))) (fun k => cat_add_rules k (cat_or CBody (cb_rules (contents_after w x l)))) E3) as (P & NM & OT); [rewrite Eb; reflexivity | reflexivity|].
  rewrite R1, (one_pattern p Pr) in P, NM. cbn [cat_rules cat_name] in P, NM.
  apply (json_message_iff p e a ms ab act ah ja); try assumption.
  - rewrite E1, Eb. cbn [msg_contents]. rewrite body_after_calls, (since_bodies l _ _ _ G3 G4); [reflexivity | discriminate].
  - left. exact NM.
  - apply OT. discriminate.
  - rewrite E2, Eb. exact ND.
  - intro k. rewrite E2, Eb, entry_get. apply MD.
Qed.
(** An asynchronous message with bytes as its body. *)
Theorem C112_async_bytes : forall d h i b g e a ms eb ect eh ab act ah, build_async w x d h = Ok i -> f_payload i = FAsync (b, g) -> same_message b e ->
  bytes_given (async_calls w x h) -> last (flat_map (body_said w x) (async_calls w x h)) BMissing = BPresent eb ect eh ->
  msg_contents a = BPresent ab act ah -> other_type x (Http.message_content_type w x e) -> Http.message_content_type w x a = Http.message_content_type w x e ->
  readable_metadata sp (msg_metadata e) -> readable_metadata sp (msg_metadata a) ->
  match_message w x e a = Ok ms ->
  (ms = [] <-> ab = eb /\ metadata_accepted w (metadata_said (async_calls w x h)) (msg_metadata a)).
Proof.
  intros d h i b g e a ms eb ect eh ab act ah B F (E1 & E2 & E3) (G1 & G2) LB Ba OT CT RE RA M.
  pose proof (async_payload d h i b g B F) as Eb. set (l := async_calls w x h) in *. unfold async_contents in Eb. cbn [fst] in Eb.
  destruct (rules_after w x l G2) as (R1 & R2 & _). rewrite G1 in R1. cbn [fold_left] in R1.
  destruct (metadata_after w x l (metadata_once_since l (no_contents h))) as [ND MD].
  destruct (shuffled_one (msg_rules e) (msg_rules b) CBody (cat_add_rules (cat_empty CBody) (cat_or CBody (cb_rules (contents_after w x l)))) (fun k => cat_add_rules k (cat_or CBody (cb_rules (contents_after w x l)))) E3) as (P & NM & OT'); [rewrite Eb; reflexivity | reflexivity|].
  rewrite R1 in P. apply Permutation_nil in P.
  apply (bytes_message_iff e a ms eb ect eh ab act ah); try assumption.
  - rewrite E1, Eb. cbn [msg_contents]. rewrite body_after_calls. exact LB.
  - apply OT'. discriminate.
  - rewrite E2, Eb. exact ND.
  - intro k. rewrite E2, Eb, entry_get. apply MD.
Qed.
End Built.
