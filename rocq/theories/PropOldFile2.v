(** C98, C99: what an older pact file does not carry, and examples. *)
From Coq Require Import Ascii String List Arith NArith ZArith Lia Bool Permutation Sorted.
From Verif Require Import Base PathExp Json Text TextProofs MatchingRules Matchers JsonCompare Headers Query QueryString ContentType Http Merge Expr Generators Base64 PactFile OldFile
  SpecHeaders SpecPath SpecQuery SpecRules SpecRulesV2 SpecGenerators SpecVerifier PropHeaders SpecPactFile SpecOldFile PropVerifier PropBroker2 PropPattern3
  PactFileProofs PactFileProofs2 PropPactFile PropPactFile2 PropRulesV2 OldFileProofs OldFileProofs2 PropOldFile.
Import ListNotations.
Open Scope N_scope.
Local Opaque show_N.

(** The type of a body that a header declares is the same after the file has been read, for a request and for a response. *)
Lemma type_kept : forall w x h h' bytes own hint b' t, old_headers_ok w h -> same_option same_map h h' -> header_type w x h = Some t ->
  own = None \/ own = Some t -> old_body_back w x never (header_type w x h) (BPresent bytes own hint) b' ->
  part_content_type w x (mkPart h (BPresent bytes own hint)) = t /\ part_content_type w x (mkPart h' b') = t.
Proof.
  intros w x h h' bytes own hint b' t OK Sh Ht Ow Bb.
  assert (T : old_type x (header_type w x h) bytes own = t) by (unfold old_type; rewrite Ht; destruct Ow; subst; reflexivity).
  split; [rewrite (part_type w x h _ bytes own hint OK eq_refl); exact T|].
  cbn [old_body_back] in Bb. rewrite Ht in Bb. rewrite Ht in T. rewrite T in Bb. cbn [read_type] in Bb. subst b'. unfold part_content_type. cbn [part_body part_headers body_content_type].
  match goal with |- match ?o with _ => _ end = t => assert (Q : o = None \/ o = Some t) end.
  { destruct (text_in_file x never t bytes); [|auto]. cbv beta. destruct (is_text t); auto. }
  destruct Q as [-> | ->]; [|reflexivity].
  destruct h as [m|]; [|discriminate]. destruct h' as [m'|]; [|contradiction]. cbn [same_option] in Sh. destruct OK as (D & Wr & Un & One).
  unfold lookup_header_value, find_header. unfold header_type, find_header in Ht.
  rewrite (find_unique _ (fun k => str_eqb (to_lower w k) (to_lower w (S_ "content-type"))) m m').
  - match goal with |- context [find ?f m] => destruct (find f m) as [[k vs]|] eqn:F end; [|discriminate].
    destruct (find_get _ (fun k => str_eqb (to_lower w k) (to_lower w (S_ "content-type"))) _ _ _ F) as [G2 Fk]. apply content_type_name in Fk.
    destruct (One k vs (obj_get_in _ _ _ _ G2) Fk) as (v & ->). cbn [snd] in Ht |- *. cbn [join_with]. rewrite Ht. reflexivity.
  - intro k. symmetry. apply Sh.
  - intros k k' v v' I1 I2 F1 F2. apply content_type_name in F1. apply content_type_name in F2. exact (Un k k' v v' I1 I2 F1 F2).
Qed.
Theorem C98_declared_type_is_kept : forall w x v r g r' g' bytes own hint t, old_headers_ok w (resp_headers r) -> same_old_response w x v (r, g) (r', g') ->
  resp_body r = BPresent bytes own hint -> header_type w x (resp_headers r) = Some t -> own = None \/ own = Some t ->
  part_content_type w x (resp_part r) = t /\ part_content_type w x (resp_part r') = t.
Proof.
  intros w x v r g r' g' bytes own hint t OK (_ & Sh & Bb & _) B Ht Ow. cbn [fst] in *. unfold resp_part. rewrite B in *. eapply type_kept; eassumption.
Qed.
Theorem C98_declared_request_type_is_kept : forall w x v r g r' g' bytes own hint t, old_headers_ok w (req_headers r) -> same_old_request w x v (r, g) (r', g') ->
  req_body r = BPresent bytes own hint -> header_type w x (req_headers r) = Some t -> own = None \/ own = Some t ->
  part_content_type w x (req_part r) = t /\ part_content_type w x (req_part r') = t.
Proof.
  intros w x v r g r' g' bytes own hint t OK (_ & _ & _ & Sh & Bb & _) B Ht Ow. cbn [fst] in *. unfold req_part. rewrite B in *. eapply type_kept; eassumption.
Qed.

(** ** Why the conditions on bodies *)
Definition body_of (j : json) (type : str) : json := JObj [(S_ "body", j); (S_ "headers", JObj [(S_ "Content-Type", JStr type)])].
Definition typed (type : str) : option hmap := Some [(S_ "Content-Type", [type])].
(** A JSON text with a quote in it becomes bytes that are no JSON. *)
Theorem C98_why_plain_text : forall w x t, parse_mime x (S_ "application/json") = Some t -> is_json t = true ->
  json_of_bytes x (S_ """a\""b""") = Some (JStr (S_ "a""b")) -> json_of_bytes x (S_ "a""b") = None ->
  let b := BPresent (S_ """a\""b""") None None in
  in_file x never (Some t) b = Some (JStr (S_ "a""b")) /\
  old_body_from_json w x (body_of (JStr (S_ "a""b")) (S_ "application/json")) (S_ "body") (typed (S_ "application/json")) =
    Ok (BPresent (S_ """a""b""") (Some t) None).
Proof.
  intros w x t P J V1 V2 b. split.
  - subst b. cbn [in_file]. change (old_type x (Some t) ?b None) with t. cbv zeta. rewrite J. unfold json_or_base64. rewrite V1. reflexivity.
  - unfold old_body_from_json. assert (declared_type w x (typed (S_ "application/json")) = Ok (Some t)) as ->.
    { cbn [declared_type typed]. unfold find_header. cbn [find fst]. change (str_eqb (to_lower w (S_ "Content-Type")) (to_lower w (S_ "content-type"))) with true. cbv iota. cbn [snd]. rewrite P. reflexivity. }
    cbn [bind]. change (json_get (S_ "body") (body_of (JStr (S_ "a""b")) (S_ "application/json"))) with (Some (JStr (S_ "a""b"))). cbv iota zeta.
    assert (json_parsable x (S_ "a""b") = false) as Pa.
    { unfold json_parsable. change (utf8 (S_ "a""b")) with (S_ "a""b"). rewrite V2. reflexivity. }
    change (match S_ "a""b" with [] => Ok BEmpty | _ => ?e end) with e. rewrite J. rewrite Pa. reflexivity.
Qed.
(** A body of a type that is not a text, whose bytes are a text, is decoded when that text happens to be Base64. *)
Theorem C98_why_base64 : forall w x t, parse_mime x (S_ "image/png") = Some t -> is_text t = false ->
  let b := BPresent (S_ "abcd") None None in
  in_file x never (Some t) b = Some (JStr (S_ "abcd")) /\
  old_body_from_json w x (body_of (JStr (S_ "abcd")) (S_ "image/png")) (S_ "body") (typed (S_ "image/png")) = Ok (BPresent [105; 183; 29] None None).
Proof.
  intros w x t P T b. assert (J : is_json t = false) by (destruct (is_json t) eqn:J; [apply json_text in J; congruence|reflexivity]). split.
  - subst b. cbn [in_file]. change (old_type x (Some t) ?b None) with t. cbv zeta. rewrite J. reflexivity.
  - unfold old_body_from_json. assert (declared_type w x (typed (S_ "image/png")) = Ok (Some t)) as ->.
    { cbn [declared_type typed]. unfold find_header. cbn [find fst]. change (str_eqb (to_lower w (S_ "Content-Type")) (to_lower w (S_ "content-type"))) with true. cbv iota. cbn [snd]. rewrite P. reflexivity. }
    cbn [bind]. change (json_get (S_ "body") (body_of (JStr (S_ "abcd")) (S_ "image/png"))) with (Some (JStr (S_ "abcd"))). cbv iota zeta.
    change (match S_ "abcd" with [] => Ok BEmpty | _ => ?e end) with e. rewrite J, T. reflexivity.
Qed.
(** The JSON body null becomes a null body, which has to be absent. *)
Theorem C98_why_json_null : forall x t own bytes hint, is_json (old_type x (Some t) bytes own) = true -> json_of_bytes x bytes = Some JNull ->
  forall w, in_file x never (Some t) (BPresent bytes own hint) = Some JNull /\ old_body_from_json w x (JObj [(S_ "body", JNull)]) (S_ "body") None = Ok BNull.
Proof. intros x t own bytes hint J P w. split; [cbn [in_file]; unfold json_or_base64; rewrite J, P; reflexivity|reflexivity]. Qed.
(** A file whose version cannot be read is treated neither as V3 nor as V2: the query of a V3 file is lost. *)
Theorem C98_why_unknown : forall w x semver version, semver version = None ->
  let j := JObj [(S_ "interactions", JArr [JObj [(S_ "request", JObj [(S_ "query", JObj [(S_ "a", JArr [JStr (S_ "1")])])])]]);
                 (S_ "metadata", JObj [(S_ "pactSpecification", JObj [(S_ "version", JStr version)])])] in
  exists p, load_pact w x semver j = Ok (AHttp p) /\ hp_version p = SUnknown /\ map (fun i => req_query (fst (h_request i))) (hp_ints p) = [None].
Proof.
  intros w x semver version H j. unfold load_pact, j.
  assert (V : determine_spec_version semver (parse_meta_data w j) = SUnknown).
  { unfold determine_spec_version. change (parse_meta_data w j) with [(S_ "pactSpecification", [(S_ "version", version)])].
    change (obj_has (S_ "pact-specification") [(S_ "pactSpecification", [(S_ "version", version)])]) with false. cbv iota. cbn [obj_get]. rewrite str_eqb_refl. cbv iota. cbn [obj_get]. rewrite str_eqb_refl, H. reflexivity. }
  fold j. rewrite V. change (obj_has (S_ "messages") _) with false. cbv iota. unfold http_pact_from_json. rewrite V.
  eexists. split; [reflexivity|]. split; reflexivity.
Qed.

(** ** Pacts that meet the conditions *)
Lemma unpadded_by : forall w s, is_space w (hd 0 s) = false -> is_space w (last s 0) = false -> unpadded (is_space w) s.
Proof.
  intros w s H L. split; intros c r ->; [exact H|]. rewrite last_last in L. exact L.
Qed.
Definition old_header : option hmap := Some [(S_ "Content-Type", [S_ "application/json"]); (S_ "Accept", [S_ "text/html"; S_ "*/*"])].
Definition old_http : http_interaction :=
  mkHI (Some (S_ "id")) (S_ "a request") [mkState (S_ "some state") [(S_ "n", JNum (PosInt 1))]; mkState (S_ "another") []]
    (mkReq (S_ "post") (S_ "/x") (Some [(S_ "q", [Some (S_ "a b"); None])]) old_header (BPresent (S_ "{""a"": 1}") None None)
       [(CBody, mkCat CBody [(from_tokens [TRoot; TField (S_ "a")], mkRules [RInteger; RType] And false)])],
     [(GcBody, [(from_tokens [TRoot; TField (S_ "a")], GRandomInt 1 9)])])
    (mkResp 201 (Some [(S_ "content-type", [S_ "image/png"])]) (BPresent [137; 80; 255; 0] None None) [], []).
Definition old_http_pact : http_pact :=
  mkHP (mkWho (S_ "c") (S_ "p")) [old_http; old_http] [(S_ "custom", [(S_ "b", S_ "1"); (S_ "a", S_ "2")]); (S_ "pactRust", [(S_ "ffi", S_ "0.4")])] SV3.
Lemma old_header_ok : old_headers_ok digits_world old_header.
Proof.
  cbn [old_headers_ok old_header]. split; [dist|]. split; [|split].
  - intros k vs [E|[E|[]]]; injection E as <- <-; (split; [repeat (constructor; [apply unpadded_by; reflexivity|]); constructor|]);
      change (str_in _ SINGLE_VALUE_HEADERS) with false; cbv iota; (split; [discriminate|]); repeat (constructor; [cbn; intuition discriminate|]); constructor.
  - intros k k' vs vs' [E|[E|[]]] [E'|[E'|[]]]; injection E as <- <-; injection E' as <- <-; intros T T'; try reflexivity; discriminate.
  - intros k vs [E|[E|[]]] T; injection E as <- <-; [eauto|discriminate].
Qed.
Lemma png_header_ok : old_headers_ok digits_world (Some [(S_ "content-type", [S_ "image/png"])]).
Proof.
  cbn [old_headers_ok]. split; [dist|]. split; [|split].
  - intros k vs [E|[]]; injection E as <- <-; (split; [repeat (constructor; [apply unpadded_by; reflexivity|]); constructor|]);
      change (str_in _ SINGLE_VALUE_HEADERS) with false; cbv iota; (split; [discriminate|]); repeat (constructor; [cbn; intuition discriminate|]); constructor.
  - intros k k' vs vs' [E|[]] [E'|[]]; injection E as <- <-; injection E' as <- <-; reflexivity.
  - intros k vs [E|[]] T; injection E as <- <-. eauto.
Qed.
Lemma old_http_ok : forall v, In v [SV2; SV3] -> http_ok digits_world file_ext v old_http.
Proof.
  intros v Hv. unfold http_ok, old_http. cbn [h_states h_request h_response]. split; [|split].
  - destruct Hv as [<-|[<-|[]]]; cbn [old_states_ok is_v3]; [discriminate|repeat constructor; cbn [In]; intuition discriminate].
  - unfold old_request_ok. cbn [fst snd req_method req_query req_headers req_body req_rules].
    split; [repeat constructor|]. split; [|split; [exact old_header_ok|split; [|split]]].
    + destruct Hv as [<-|[<-|[]]]; cbn [old_query_ok is_v3]; [|dist]. split; [repeat constructor; cbn [In]; intuition discriminate|]. split; [discriminate|].
      intros k vs [E|[]]; injection E as <- <-. split; [split; [discriminate|]; intros c I1; cbn in I1; repeat destruct I1 as [<-|I1]; try contradiction; lia|]. split; [discriminate|].
      intros s [E|[E|[]]]; try discriminate. injection E as <-. intros c I1; cbn in I1; repeat destruct I1 as [<-|I1]; try contradiction; lia.
    + cbn [old_body_ok]. change (is_json _) with true. cbv iota. eexists. split; [reflexivity|]. split; [discriminate|]. discriminate.
    + destruct Hv as [<-|[<-|[]]]; unfold old_rules_ok; cbn [is_v3].
      * split; [repeat constructor; cbn [In]; intuition discriminate|]. constructor; [|constructor]. cbn [fst snd cat_name cat_rules]. split; [reflexivity|]. split; [repeat constructor; cbn [In]; intuition discriminate|].
        constructor; [|constructor]. split; [eexists; eexists; split; [reflexivity|repeat constructor]|]. split; [reflexivity|]. exists (S_ ".a"). split; [reflexivity|]. cbn. intuition discriminate.
      * split; [repeat constructor; cbn [In]; intuition discriminate|]. repeat constructor; cbn [In fst snd cat_rules]; try intuition discriminate.
    + destruct Hv as [<-|[<-|[]]]; cbn [old_generators_ok is_v3]; [exact I|]. split; [split; repeat constructor; cbn [In]; intuition discriminate|].
      intros c p y (m & [E|[]] & I2). injection E as <- <-. destruct I2 as [E|[]]. injection E as <- <-. split; [reflexivity|exact I].
  - unfold old_response_ok. cbn [fst snd resp_status resp_headers resp_body resp_rules]. split; [reflexivity|]. split; [exact png_header_ok|]. split; [|split].
    + cbn [old_body_ok]. change (is_json _) with false. cbv iota. change (from_utf8 [137; 80; 255; 0]) with (@None str). split; [discriminate|]. split; [repeat constructor|reflexivity].
    + destruct Hv as [<-|[<-|[]]]; unfold old_rules_ok; cbn [is_v3]; split; constructor.
    + destruct Hv as [<-|[<-|[]]]; cbn [old_generators_ok is_v3]; [exact I|]. split; [split; constructor|intros c p y (m & [] & _)].
Qed.
Example C98_example : forall v, In v [SV2; SV3] -> http_pact_ok digits_world file_ext v old_http_pact.
Proof.
  intros v Hv. unfold http_pact_ok, old_http_pact. cbn [hp_ints hp_meta]. split; [repeat (constructor; [apply old_http_ok, Hv|]); constructor|].
  split; [dist|]. split; [repeat constructor; cbn [In]; intuition discriminate|]. split; reflexivity.
Qed.
Definition lenient (s : str) : option (N * N) :=
  if str_eqb s (S_ "1.0.0") then Some (1, 0) else if str_eqb s (S_ "1.1.0") then Some (1, 1) else if str_eqb s (S_ "2.0.0") then Some (2, 0)
  else if str_eqb s (S_ "3.0.0") then Some (3, 0) else if str_eqb s (S_ "4.0") then Some (4, 0) else None.
Example C98_versions_example : reads_versions lenient.
Proof. repeat split. Qed.

Definition old_messages : message_file :=
  mkMF (mkWho (S_ "c") (S_ "p"))
    [mkOM (Some (S_ "id")) (S_ "an event") [mkState (S_ "s") []]
       (mkMsg (BPresent (S_ "{""a"": 1}") None None) [(S_ "Content-Type", JStr (S_ "application/json")); (S_ "topic", JStr (S_ "t"))]
          [(CBody, mkCat CBody [(from_tokens [TRoot; TField (S_ "a")], mkRules [RInteger; RType] And false)])], [(GcBody, [(path_root, GUuid None)])]);
     mkOM None (S_ "a picture") [] (mkMsg (BPresent [137; 80; 255; 0] (Some (mkCT (S_ "image") (S_ "png") [] None)) (Some HBinary)) [(S_ "contentType", JStr (S_ "image/png"))] [], []);
     mkOM None (S_ "a note") [] (mkMsg (BPresent (S_ "hello") None None) [] [], [])]
    [] SV3.
Example C99_example : message_file_ok digits_world file_ext old_messages.
Proof.
  assert (One : forall md : list (str * json), (length md <= 1)%nat -> forall k k' v v', In (k, v) md -> In (k', v') md -> is_type_entry k -> is_type_entry k' -> k = k').
  { intros [|[k0 v0] [|]] L k k' v v' I1 I2 _ _; cbn in *; try lia; try contradiction. destruct I1 as [E|[]], I2 as [E'|[]]. congruence. }
  unfold message_file_ok, old_messages. cbn [mf_msgs mf_meta]. split; [|split; [dist|split; [constructor|split; reflexivity]]].
  constructor; [|constructor; [|constructor; [|constructor]]]; unfold old_message_ok; cbn [om_body om_states fst snd msg_metadata msg_contents msg_rules].
  - split; [repeat constructor|]. split; [dist|]. split; [|split; [|split]].
    + intros k k' v v' [E|[E|[]]] [E'|[E'|[]]]; injection E as <- <-; injection E' as <- <-; intros T T'; try reflexivity; unfold is_type_entry in *; exfalso; destruct T, T'; discriminate.
    + intros k v [E|[E|[]]] T; injection E as <- <-; [eexists; split; reflexivity|]. exfalso. destruct T; discriminate.
    + intros t [(k & v & I1 & T & ->)|[N1 _]].
      * destruct I1 as [E|[E|[]]]; injection E as <- <-; [|exfalso; destruct T; discriminate]. cbn [old_body_ok]. change (is_json _) with true. cbv iota. eexists. split; [reflexivity|]. split; discriminate.
      * exfalso. apply (N1 _ _ (or_introl eq_refl)). right. reflexivity.
    + split; [repeat constructor; cbn [In]; intuition discriminate|]. repeat constructor; cbn [In fst snd cat_rules]; try intuition discriminate.
  - split; [constructor|]. split; [dist|]. split; [apply One; cbn; lia|]. split; [|split].
    + intros k v [E|[]] T; injection E as <- <-. eexists. split; reflexivity.
    + intros t [(k & v & [E|[]] & T & ->)|[N1 _]]; [injection E as <- <-|exfalso; apply (N1 _ _ (or_introl eq_refl)); left; reflexivity].
      cbn [old_body_ok]. change (is_json _) with false. cbv iota. change (is_binary _) with true. cbv iota. split; [discriminate|]. split; [repeat constructor|reflexivity].
    + split; constructor.
  - split; [constructor|]. split; [dist|]. split; [intros k k' v v' []|]. split; [intros k v []|]. split; [|split; constructor].
    intros t [(k & v & [] & _)|[_ ->]]. cbn [old_body_ok]. change (is_json _) with false. cbv iota. change (is_binary _) with false. cbv iota.
    change (from_utf8 (S_ "hello")) with (Some (S_ "hello")). cbv iota. split; [discriminate|]. split; [reflexivity|]. left. reflexivity.
Qed.
