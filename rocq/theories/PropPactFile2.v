(** C97: examples, and what a V4 pact file does not carry. *)
From Coq Require Import Ascii String List Arith NArith ZArith Lia Bool Permutation Sorted.
From Verif Require Import Base PathExp Json Text TextProofs MatchingRules Matchers JsonCompare Headers Query QueryString ContentType Http Merge Expr Generators Base64 PactFile
  SpecQuery SpecRules SpecGenerators SpecVerifier SpecPactFile PropPattern3 PactFileProofs PactFileProofs2 PropPactFile.
Import ListNotations.
Open Scope N_scope.
Local Opaque show_N.

(** A null body is not written, and a missing one allows anything: a response that had to be without content may then have any. *)
Theorem C97_why_null : forall w x r g r' g' a c hc, same_response w x (r, g) (r', g') ->
  resp_body r = BNull -> resp_headers r = None -> body_present (part_body a) = true ->
  match_body w x (resp_part r) a c hc = body_problem KNotEmpty /\ match_body w x (resp_part r') a c hc = Ok BodyOk.
Proof.
  intros w x r g r' g' a c hc (_ & Hh & Bb & _) B H P. cbn [fst] in *. rewrite B in Bb. cbn [body_back] in Bb. rewrite H in Hh.
  destruct (resp_headers r') as [m|] eqn:H'; [contradiction|].
  unfold match_body, resp_part, part_content_type, content_types_compatible. cbn [part_body part_headers]. rewrite B, Bb, H, H'. cbn [body_content_type lookup_header_value detect_content_type is_unknown orb].
  change (is_unknown ct_default) with true. cbn [orb]. unfold match_body_content. cbn [part_body]. destruct (part_body a); try discriminate. split; reflexivity.
Qed.
(** A response's body without a content type of its own is written as "*/*": the type of the header no longer counts. *)
Theorem C97_why_response_type : forall w x r g r' g' bytes h m v t, same_response w x (r, g) (r', g') ->
  resp_body r = BPresent bytes None h -> resp_headers r = Some m -> find_header w m (S_ "content-type") = Some [v] -> parse_mime x v = Some t ->
  part_content_type w x (resp_part r) = t /\ part_content_type w x (resp_part r') = ct_default.
Proof.
  intros w x r g r' g' bytes h m v t (_ & _ & Bb & _) B H F P. cbn [fst] in *. rewrite B in Bb. cbn [body_back] in Bb. destruct Bb as (bytes' & E & _).
  unfold part_content_type, resp_part. cbn [part_body part_headers]. rewrite B, E. cbn [body_content_type own_only written_type]. split; [|reflexivity].
  unfold lookup_header_value. rewrite H, F. cbn [join_with]. rewrite P. reflexivity.
Qed.
(** The same request keeps it. *)
Theorem C97_request_type : forall w x r g r' g' bytes h m v t, same_request w x (r, g) (r', g') ->
  req_body r = BPresent bytes None h -> req_headers r = Some m -> find_header w m (S_ "content-type") = Some [v] -> parse_mime x v = Some t ->
  part_content_type w x (req_part r) = t /\ part_content_type w x (req_part r') = t.
Proof.
  intros w x r g r' g' bytes h m v t (_ & _ & _ & _ & Bb & _) B H F P. cbn [fst] in *. rewrite B in Bb. cbn [body_back] in Bb. destruct Bb as (bytes' & E & _).
  unfold part_content_type, req_part. cbn [part_body part_headers]. rewrite B, E. cbn [body_content_type]. unfold looked_at, header_type, lookup_header_value. rewrite H, F.
  cbn [join_with]. rewrite P. split; reflexivity.
Qed.
(** The JSON bodies null and "" are read as null and empty bodies. *)
Theorem C97_why_json_null : forall w x h hint bytes t, is_json t = true -> json_of_bytes x bytes = Some JNull ->
  body_from_json w x (JObj (body_field x (S_ "body") (BPresent bytes (Some t) hint))) (S_ "body") h = Ok BNull.
Proof.
  intros w x h hint bytes t J P. unfold body_from_json, json_get, body_field, body_to_v4_json, written_content. rewrite J, P. cbn [obj_get]. rewrite str_eqb_refl.
  rewrite PropBroker2.of_list_get, !PropVerifier.last_entry_app, last_one, last_optional, !last_cons. keys_decide. reflexivity.
Qed.
Theorem C97_why_json_empty : forall w x h hint bytes t, is_json t = true -> json_of_bytes x bytes = Some (JStr []) ->
  body_from_json w x (JObj (body_field x (S_ "body") (BPresent bytes (Some t) hint))) (S_ "body") h = Ok BEmpty.
Proof.
  intros w x h hint bytes t J P. unfold body_from_json, json_get, body_field, body_to_v4_json, written_content. rewrite J, P. cbn [obj_get]. rewrite str_eqb_refl.
  rewrite !PropBroker2.of_list_get, !PropVerifier.last_entry_app, last_one, last_optional, !last_cons. keys_decide.
  unfold content_type_from_json, encoding_of. rewrite !PropBroker2.of_list_get, !PropVerifier.last_entry_app, !last_one, !last_optional, !last_cons. keys_decide. cbn [last_entry bind json_to_string].
  unfold read_bytes. cbn [fst snd]. destruct (parse_mime x (ct_show t)) as [t'|]; [destruct (is_json t'); reflexivity|reflexivity].
Qed.
(** A status is read as sixteen bits; one that is not an unsigned integer ends the program. *)
Theorem C97_why_status : forall w x,
  (exists r, response_from_json w x (JObj [(S_ "status", JNum (PosInt 65736))]) = Ok (r, []) /\ resp_status r = 200) /\
  response_from_json w x (JObj [(S_ "status", JStr (S_ "200"))]) = Panic.
Proof. intros w x. split; [eexists; split; reflexivity|reflexivity]. Qed.
(** So does a content-type header without values. *)
Theorem C97_why_header : forall w x,
  request_to_json w x (mkReq (S_ "GET") (S_ "/") None (Some [(S_ "Content-Type", [])]) BMissing []) [] = Panic /\
  request_from_json w x (JObj [(S_ "body", JObj [(S_ "content", JStr (S_ "a"))]); (S_ "headers", JObj [(S_ "Content-Type", JArr [])])]) = Panic.
Proof. intros w x. split; reflexivity. Qed.

(** ** A pact that meets the conditions *)
Definition file_ext : externals := mkExt
  (fun s => if str_eqb s (S_ "application/json") then Some (mkCT (S_ "application") (S_ "json") [] None)
            else if str_eqb s (S_ "image/png") then Some (mkCT (S_ "image") (S_ "png") [] None)
            else if str_eqb s (S_ "text/plain") then Some (mkCT (S_ "text") (S_ "plain") [] None)
            else if str_eqb s (S_ "*/*") then Some ct_default else None)
  (fun _ => mkCT (S_ "text") (S_ "plain") [] None) (fun _ => None)
  (fun b => if str_eqb b (S_ "{""a"": 1}") || str_eqb b (S_ "{""a"":1}") then Some (JObj [(S_ "a", JNum (PosInt 1))]) else None)
  (fun _ => None) (fun _ _ => true) (fun _ _ _ => []) (fun _ _ _ _ _ => []).
Definition json_header : option hmap := Some [(S_ "Content-Type", [S_ "application/json"]); (S_ "Accept", [S_ "a"; S_ "b"])].
Definition file_request : request :=
  mkReq (S_ "post") (S_ "/x") (Some [(S_ "q", [Some (S_ "1"); None])]) json_header (BPresent (S_ "{""a"": 1}") None None)
    [(CBody, mkCat CBody [(from_tokens [TRoot; TField (S_ "a")], rl_new RInteger)])].
Definition file_response : response := mkResp 200 json_header (BPresent (S_ "{""a"": 1}") None None) [].
Definition file_message : message := mkMsg (BPresent [137; 80; 255; 0] (Some (mkCT (S_ "image") (S_ "png") [] None)) (Some HBinary)) [(S_ "contentType", JStr (S_ "image/png"))] [].
Definition file_pact : v4_file := mkVF (mkWho (S_ "c") (S_ "p"))
  [mkFI (Some (S_ "id")) (Some (S_ "k")) (S_ "b") [mkState (S_ "s") [(S_ "n", JNum (PosInt 1)); (S_ "a", JNull)]]
     (FHttp (file_request, [(GcBody, [(from_tokens [TRoot; TField (S_ "a")], GRandomInt 1 9)])]) (file_response, []))
     (mkExtra [(S_ "text", JArr [JStr (S_ "hi")]); (S_ "none", JNull)] true [(S_ "plug", [(S_ "x", JBool true)])] ([], S_ "COMMON_MARK") (Some (S_ "https")));
   mkFI None None (S_ "a") [] (FAsync (file_message, [])) extra_default;
   mkFI None None (S_ "a") [] (FSync (file_message, []) [(file_message, []); (mkMsg BEmpty [] [], [])]) extra_default]
  [(S_ "pactSpecification", JObj []); (S_ "custom", JNum (PosInt 7))] [mkPlugin (S_ "csv") (S_ "1") [(S_ "z", JNull)]].

Ltac dist := unfold distinct, distinct_in; cbn [map fst]; repeat (constructor; [cbn [In]; intuition discriminate|]); constructor.
Lemma message_is_ok : forall T, (forall b o, T b (Some o) = o) -> message_ok digits_world file_ext T (file_message, []).
Proof.
  intros T HT. unfold message_ok. cbn [fst snd file_message msg_metadata msg_contents msg_rules]. split; [dist|]. split.
  - cbn [body_ok]. rewrite HT. split; [discriminate|]. split; [repeat constructor|]. split; [reflexivity|discriminate].
  - split; [split; constructor|]. split; [split; constructor|]. intros c p y (m & [] & _).
Qed.
Example C97_example : pact_ok digits_world file_ext file_pact /\ (forall f, show_float digits_world f <> []).
Proof.
  split; [|discriminate]. unfold pact_ok, file_pact. cbn [vf_ints vf_meta vf_plugins].
  assert (GE : generators_ok digits_world []) by (split; [split; constructor|intros c p y (m & [] & _)]).
  split; [|split; [dist|split; [cbn [In]; intros k H; intuition (subst; reflexivity)|constructor; [cbn [pl_config]; dist|constructor]]]].
  repeat (match goal with |- Forall _ _ => constructor end).
  - unfold interaction_ok. cbn [f_states f_extra f_payload x_comments x_plugin st_params].
    split; [repeat constructor; cbn [In]; intuition discriminate|]. split; [dist|]. split; [dist|]. split; [repeat constructor; cbn [In]; intuition discriminate|].
    cbn [payload_ok]. split.
    + unfold request_ok. cbn [fst snd file_request req_method req_query req_headers req_body req_rules].
      split; [repeat constructor|]. split; [dist|]. split; [dist|]. split.
      { intros m k vs E I1 _. injection E as <-. cbn [In] in I1. intuition congruence. }
      split. { cbn [body_ok]. split; [discriminate|]. split; [repeat constructor|]. split; [reflexivity|]. intros _. split; discriminate. }
      split.
      { split; [repeat constructor; cbn [In]; intuition discriminate|]. repeat constructor; cbn [In fst snd cat_rules]; try intuition discriminate. }
      split; [split; repeat constructor; cbn [In]; intuition discriminate|].
      intros c p y (m & [E|[]] & I2). injection E as <- <-. destruct I2 as [E|[]]. injection E as <- <-. split; [reflexivity|exact I].
    + unfold response_ok. cbn [fst snd file_response resp_status resp_headers resp_body resp_rules].
      split; [reflexivity|]. split; [dist|]. split.
      { intros m k vs E I1 _. injection E as <-. cbn [In] in I1. intuition congruence. }
      split. { cbn [body_ok]. split; [discriminate|]. split; [repeat constructor|]. split; [reflexivity|]. intros _. split; discriminate. }
      split; [split; constructor|exact GE].
  - unfold interaction_ok. cbn [f_states f_extra f_payload extra_default x_comments x_plugin]. split; [constructor|]. split; [dist|]. split; [dist|]. split; [constructor|].
    apply message_is_ok. reflexivity.
  - unfold interaction_ok. cbn [f_states f_extra f_payload extra_default x_comments x_plugin]. split; [constructor|]. split; [dist|]. split; [dist|]. split; [constructor|].
    split; [apply message_is_ok; reflexivity|]. constructor; [apply message_is_ok; reflexivity|]. constructor; [|constructor].
    split; [dist|]. split; [exact I|]. split; [split; constructor|exact GE].
Qed.
(** The consequence for matching: the response of the example accepts its own body with other white space; after it has
    been written and read, bodies are compared byte by byte, and the comparison ends the program, as the texts are short. *)
Example C97_why_response_type_example : exists j r', response_to_json file_ext file_response [] = Ok j /\
  response_from_json digits_world file_ext j = Ok (r', []) /\
  let actual := mkPart json_header (BPresent (S_ "{""a"":1}") None None) in
  let ctx := mkCtx true (cat_empty CBody) in
  match_body digits_world file_ext (resp_part file_response) actual ctx (mkCtx true (cat_empty CHeader)) = Ok BodyOk /\
  match_body digits_world file_ext (resp_part r') actual ctx (mkCtx true (cat_empty CHeader)) <> Ok BodyOk.
Proof. eexists _, _. split; [reflexivity|]. split; [reflexivity|]. split; [vm_compute; reflexivity|vm_compute; discriminate]. Qed.
