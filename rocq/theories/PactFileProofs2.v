(** Writing and reading requests, responses, messages and interactions of a V4 pact file. *)
From Coq Require Import Ascii String List Arith NArith ZArith Lia Bool Permutation Sorted.
From Verif Require Import Base PathExp Json Text TextProofs MatchingRules Matchers JsonCompare Headers Query QueryString ContentType Http Merge Expr Generators Base64 PactFile
  SpecQuery SpecRules SpecGenerators SpecVerifier SpecPactFile QueryProofs HeaderProofs2 PropQuery PropVerifier PropBroker2 PropStateChange PactFileProofs.
Import ListNotations.
Open Scope N_scope.
Local Opaque show_N.

Lemma of_list_keys : forall A (l : list (str * A)), NoDup (keys (obj_of_list l)).
Proof. intros. apply sorted_nodup. apply of_list_sorted. constructor. Qed.
Ltac looked := rewrite ?get_of, ?last_entry_app, ?last_one, ?last_optional, ?last_field, ?last_map_written, ?last_generators, ?last_cons; keys_decide.
(** Headers. *)
Lemma headers_back : forall w h j, distinct_in h -> json_get (S_ "headers") j = option_map headers_to_v4_json h ->
  exists h', headers_from_json w j = h' /\ same_option same_map h h' /\
    (forall m' k vs, h' = Some m' -> In (k, vs) m' -> exists m, h = Some m /\ In (k, vs) m).
Proof.
  intros w [m|] j D G; unfold headers_from_json; rewrite G; cbn [option_map headers_to_v4_json].
  2:{ eexists. split; [reflexivity|]. split; [exact I|]. discriminate. }
  set (o := obj_of_list _). assert (E : forall k, obj_get k (map (fun kv => (fst kv, header_values w (fst kv) (snd kv))) o) = obj_get k m).
  { intro k. rewrite (obj_get_mapk json (list str) (header_values w)). subst o. rewrite of_list_get.
    cbn [distinct_in] in D. unfold distinct in D. rewrite last_entry_nodup.
    - rewrite (obj_get_map (list str) json (fun vs => JArr (map JStr vs))). destruct (obj_get k m) as [vs|]; [|reflexivity].
      cbn [header_values]. f_equal. rewrite map_map. apply map_id.
    - unfold keys. rewrite map_map. cbn [fst]. exact D. }
  assert (ND : NoDup (keys (map (fun kv => (fst kv, header_values w (fst kv) (snd kv))) o))).
  { unfold keys. rewrite map_map. cbn [fst]. apply of_list_keys. }
  clearbody o. eexists. split; [reflexivity|]. split.
  - cbn [same_option]. intro k. rewrite !entry_get. symmetry. apply E.
  - intros m' k vs H Hin. assert (m' = map (fun kv => (fst kv, header_values w (fst kv) (snd kv))) o) as -> by congruence. clear H.
    exists m. split; [reflexivity|]. apply obj_get_in. rewrite <- E. apply obj_get_nodup; assumption.
Qed.
Lemma typed_no_empty : forall w h, typed_headers w h -> no_empty_type w h.
Proof.
  intros w [m|] H; cbn; [|exact I]. unfold find_header. destruct (find _ m) as [[k vs]|] eqn:F; [|discriminate].
  apply find_some in F. destruct F as [I1 E]. cbn [fst snd] in *. intro E2. injection E2 as ->. refine (H m k [] eq_refl I1 _ eq_refl).
  unfold is_content_type. apply str_eqb_eq in E. rewrite E. reflexivity.
Qed.
Lemma calc_ok : forall w x b h, no_empty_type w h ->
  exists ct, calc_content_type w x b h = Ok ct /\
    forall bytes own hint, b = BPresent bytes own hint ->
      match Http.or_else own ct with Some c => c | None => ct_default end = looked_at x (header_type w x h) bytes own.
Proof.
  intros w x b h N. unfold calc_content_type. destruct (body_content_type b) as [c|] eqn:B.
  - eexists. split; [reflexivity|]. intros bytes own hint ->. cbn in B. subst own. reflexivity.
  - assert (H : exists o, match h with Some h => match find_header w h (S_ "content-type") with Some (v :: _) => Ok (parse_mime x v) | Some [] => Panic | None => Ok None end | None => Ok None end = Ok o :> outcome (option content_type) unit /\ header_type w x h = o).
    { unfold header_type. destruct h as [m|]; [|eauto]. unfold no_empty_type in N. destruct (find_header w m (S_ "content-type")) as [[|v l]|]; [destruct (N eq_refl)|eauto|eauto]. }
    destruct H as (o & -> & ->). cbn [bind]. eexists. split; [reflexivity|]. intros bytes own hint ->. cbn in B. subst own. cbn [body_present body_bytes body_value].
    unfold looked_at, written_type. destruct o as [t|]; [reflexivity|]. cbn [Http.or_else]. destruct (detect_bytes x bytes); reflexivity.
Qed.
Lemma upper_twice : forall w s, Forall (fun c => c < 128) s -> to_upper w (to_upper w s) = to_upper w s.
Proof.
  intros w s H. induction H as [|c s Hc _ IH]; [reflexivity|]. unfold to_upper in *. cbn [flat_map].
  replace (c <? 128) with true by (symmetry; apply N.ltb_lt, Hc). cbn [app flat_map].
  assert (ascii_up c < 128 /\ ascii_up (ascii_up c) = ascii_up c) as [A B].
  { unfold ascii_up, is_lower. destruct ((97 <=? c) && (c <=? 122)) eqn:E; [|rewrite E; split; [exact Hc|reflexivity]].
    apply andb_true_iff in E. destruct E as [E1 E2]. apply N.leb_le in E1. apply N.leb_le in E2. split; [lia|].
    replace (97 <=? c - 32) with false by (symmetry; apply N.leb_gt; lia). reflexivity. }
  replace (ascii_up c <? 128) with true by (symmetry; apply N.ltb_lt, A). cbn [app]. rewrite B, IH. reflexivity.
Qed.

(** ** Requests and responses *)
Section Parts.
Variable w : world.
Variable x : externals.
Hypothesis SF : forall f, show_float w f <> [].

Lemma request_back : forall q, request_ok w x q -> exists j, request_to_json w x (fst q) (snd q) = Ok j /\
  exists q', request_from_json w x j = Ok q' /\ same_request w x q q'.
Proof.
  intros [r g]. unfold request_ok. cbn [fst snd]. intros (Me & Dq & Dh & Th & Bo & Ru & Ge). unfold request_to_json.
  pose proof (typed_no_empty w _ Th) as Ne. destruct (calc_ok w x (req_body r) _ Ne) as (ct & -> & Ct). cbn [bind].
  destruct (rules_back w _ Ru) as (rs & -> & Rn & Rr). cbn [bind]. eexists. split; [reflexivity|].
  set (L := _ ++ optional (S_ "query") _ _ ++ _). set (j := JObj (obj_of_list L)).
  assert (F1 : json_get (S_ "method") j = Some (JStr (to_upper w (req_method r)))) by (subst j L; looked; rewrite Rn by discriminate; reflexivity).
  assert (F2 : json_get (S_ "path") j = Some (JStr (req_path r))) by (subst j L; looked; rewrite Rn by discriminate; reflexivity).
  assert (F3 : json_get (S_ "query") j = option_map query_to_json (req_query r)).
  { subst j L; looked; rewrite Rn by discriminate. destruct (req_query r); reflexivity. }
  assert (F4 : json_get (S_ "headers") j = option_map headers_to_v4_json (req_headers r)).
  { subst j L; looked; rewrite Rn by discriminate. destruct (req_headers r); reflexivity. }
  assert (F5 : json_get (S_ "body") j = last_entry (S_ "body") (body_field x (S_ "body") (with_content_type_if_not_set (req_body r) ct))).
  { subst j L; looked; rewrite Rn by discriminate. destruct (body_to_v4_json x _); reflexivity. }
  assert (F6 : json_get (S_ "matchingRules") j = last_entry (S_ "matchingRules") rs).
  { subst j L; looked. destruct (last_entry (S_ "matchingRules") rs); reflexivity. }
  assert (F7 : json_get (S_ "generators") j = last_entry (S_ "generators") (generators_written g)).
  { subst j L; looked; rewrite Rn by discriminate. destruct (gens_is_empty g); reflexivity. }
  clearbody j. clear L. unfold request_from_json.
  destruct (headers_back w _ j Dh F4) as (h' & -> & Hs & Hi).
  assert (Ne' : no_empty_type w h').
  { apply typed_no_empty. intros m' k vs E I1 C. destruct (Hi m' k vs E I1) as (m & Em & Im). exact (Th m k vs Em Im C). }
  destruct (body_reads w x (looked_at x (header_type w x (req_headers r))) (req_body r) (with_content_type_if_not_set (req_body r) ct) j (S_ "body") h') with (5 := F5) as (b' & -> & Bb); try assumption.
  { destruct (req_body r) as [| | |bytes own h]; try reflexivity. cbn [with_content_type_if_not_set]. eexists. split; [reflexivity|]. eapply Ct. reflexivity. }
  cbn [bind]. destruct (Rr j F6) as (m' & -> & Sm). cbn [bind]. destruct (generators_back w g j Ge F7) as (g' & -> & Sg). cbn [bind].
  eexists. split; [reflexivity|]. unfold same_request. cbn [fst snd req_method req_path req_query req_headers req_body req_rules].
  rewrite F1, F2, F3. cbn [text_or_shown]. rewrite upper_twice by exact Me.
  repeat (match goal with |- _ /\ _ => split end); try reflexivity; try assumption.
  destruct (req_query r) as [m|]; [|exact I]. cbn [option_map distinct_in] in *. destruct (C41_v3_query_roundtrip w m Dq) as (q' & -> & Sq).
  cbn [same_option]. intro k. symmetry. apply Sq.
Qed.
Lemma response_back : forall q, response_ok w x q -> exists j, response_to_json x (fst q) (snd q) = Ok j /\
  exists q', response_from_json w x j = Ok q' /\ same_response w x q q'.
Proof.
  intros [r g]. unfold response_ok. cbn [fst snd]. intros (St & Dh & Th & Bo & Ru & Ge). unfold response_to_json.
  destruct (rules_back w _ Ru) as (rs & -> & Rn & Rr). cbn [bind]. eexists. split; [reflexivity|].
  set (L := _ ++ optional (S_ "headers") _ _ ++ _). set (j := JObj (obj_of_list L)).
  assert (F1 : json_get (S_ "status") j = Some (JNum (PosInt (resp_status r)))) by (subst j L; looked; rewrite Rn by discriminate; reflexivity).
  assert (F4 : json_get (S_ "headers") j = option_map headers_to_v4_json (resp_headers r)).
  { subst j L; looked; rewrite Rn by discriminate. destruct (resp_headers r); reflexivity. }
  assert (F5 : json_get (S_ "body") j = last_entry (S_ "body") (body_field x (S_ "body") (resp_body r))).
  { subst j L; looked; rewrite Rn by discriminate. destruct (body_to_v4_json x _); reflexivity. }
  assert (F6 : json_get (S_ "matchingRules") j = last_entry (S_ "matchingRules") rs).
  { subst j L; looked. destruct (last_entry (S_ "matchingRules") rs); reflexivity. }
  assert (F7 : json_get (S_ "generators") j = last_entry (S_ "generators") (generators_written g)).
  { subst j L; looked; rewrite Rn by discriminate. destruct (gens_is_empty g); reflexivity. }
  clearbody j. clear L. unfold response_from_json. rewrite F1. cbn [bind]. rewrite N.mod_small by exact St.
  destruct (headers_back w _ j Dh F4) as (h' & -> & Hs & Hi).
  assert (Ne' : no_empty_type w h').
  { apply typed_no_empty. intros m' k vs E I1 C. destruct (Hi m' k vs E I1) as (m & Em & Im). exact (Th m k vs Em Im C). }
  destruct (body_reads w x own_only (resp_body r) (resp_body r) j (S_ "body") h') with (5 := F5) as (b' & -> & Bb); try assumption.
  { destruct (resp_body r) as [| | |bytes own h]; try reflexivity. exists own. split; [reflexivity|]. destruct own; reflexivity. }
  cbn [bind]. destruct (Rr j F6) as (m' & -> & Sm). cbn [bind]. destruct (generators_back w g j Ge F7) as (g' & -> & Sg). cbn [bind].
  eexists. split; [reflexivity|]. unfold same_response. cbn [fst snd resp_status resp_headers resp_body resp_rules].
  repeat (match goal with |- _ /\ _ => split end); try reflexivity; try assumption.
Qed.

(** ** Messages *)
Lemma metadata_headers : forall md, header_type w x (metadata_to_headers w md) = metadata_type w x md /\ no_empty_type w (metadata_to_headers w md).
Proof.
  intro md. unfold metadata_to_headers, metadata_type. change (@entry json) with (@obj_get json). destruct (obj_get (S_ "contentType") md) as [v|]; split; try exact I; try reflexivity.
  cbn [no_empty_type]. unfold find_header. cbn [find fst]. change (str_eqb (to_lower w (S_ "Content-Type")) (to_lower w (S_ "content-type"))) with true. discriminate.
Qed.
Lemma metadata_back : forall md j, distinct md -> json_get (S_ "metadata") j = last_entry (S_ "metadata") (map_written (S_ "metadata") md) ->
  same_map md (match json_get (S_ "metadata") j with Some (JObj m) => m | _ => [] end).
Proof.
  intros md j D G. rewrite G, last_map_written, str_eqb_refl. destruct md as [|kv md]; [intro k; reflexivity|]. apply of_list_same, D.
Qed.
Lemma contents_back : forall T m g j b1 rs, message_ok w x T (m, g) ->
  (match msg_contents m with
   | BPresent bytes own h => exists o, b1 = BPresent bytes o h /\ (match o with Some c => c | None => ct_default end) = T bytes own
   | b => b1 = b
   end) ->
  json_get (S_ "contents") j = last_entry (S_ "contents") (body_field x (S_ "contents") b1) ->
  json_get (S_ "metadata") j = last_entry (S_ "metadata") (map_written (S_ "metadata") (msg_metadata m)) ->
  json_get (S_ "matchingRules") j = last_entry (S_ "matchingRules") rs ->
  (forall j, json_get (S_ "matchingRules") j = last_entry (S_ "matchingRules") rs -> exists m', rules_read w j = Ok m' /\ same_collection (msg_rules m) m') ->
  json_get (S_ "generators") j = last_entry (S_ "generators") (generators_written g) ->
  exists q', contents_from_json w x j = Ok q' /\ same_message w x T (m, g) q'.
Proof.
  intros T m g j b1 rs (D & Bo & Ru & Ge) HB F1 F2 F3 Rr F4. cbn [fst snd] in *. unfold contents_from_json.
  pose proof (metadata_back _ j D F2) as Md. set (md' := match json_get (S_ "metadata") j with Some (JObj m) => m | _ => [] end) in *. clearbody md'.
  destruct (body_reads w x T (msg_contents m) b1 j (S_ "contents") (metadata_to_headers w md')) with (5 := F1) as (b' & -> & Bb); try assumption.
  { destruct (msg_contents m); exact HB. }
  { apply metadata_headers. }
  cbn [bind]. destruct (Rr j F3) as (m' & -> & Sm). cbn [bind]. destruct (generators_back w g j Ge F4) as (g' & -> & Sg). cbn [bind].
  eexists. split; [reflexivity|]. unfold same_message. cbn [fst snd msg_contents msg_metadata msg_rules]. auto.
Qed.
Lemma message_back : forall q, message_ok w x (by_metadata w x q) q -> exists j, message_to_json w x (fst q) (snd q) = Ok j /\
  exists q', message_from_json w x j = Ok q' /\ same_message w x (by_metadata w x q) q q'.
Proof.
  intros [m g] OK. pose proof OK as (D & Bo & Ru & Ge). cbn [fst snd] in *. unfold message_to_json.
  destruct (metadata_headers (msg_metadata m)) as [Ht Ne]. destruct (calc_ok w x (msg_contents m) _ Ne) as (ct & -> & Ct). rewrite Ht in Ct. cbn [bind].
  destruct (rules_back w _ Ru) as (rs & -> & Rn & Rr). cbn [bind]. eexists. split; [reflexivity|]. cbn [message_from_json].
  set (j := JObj (obj_of_list _)).
  apply (contents_back _ m g j (with_content_type_if_not_set (msg_contents m) ct) rs); try assumption.
  - destruct (msg_contents m) as [| | |bytes own h]; try reflexivity. cbn [with_content_type_if_not_set]. eexists. split; [reflexivity|]. eapply Ct. reflexivity.
  - subst j; looked; rewrite Rn by discriminate. destruct (body_to_v4_json x _); reflexivity.
  - subst j; looked; rewrite Rn by discriminate. destruct (msg_metadata m); reflexivity.
  - subst j; looked. destruct (last_entry (S_ "matchingRules") rs); reflexivity.
  - subst j; looked; rewrite Rn by discriminate. destruct (gens_is_empty g); reflexivity.
Qed.
End Parts.
