(** C114: what the fields of a pact file say. *)
From Coq Require Import Ascii String List Arith NArith ZArith Lia Bool.
From Verif Require Import Base PathExp Json Text MatchingRules Matchers JsonCompare Headers Query QueryString ContentType SpecQuery Http QueryProofs Merge Generators Base64 PactFile PactFileProofs OldFile SpecReading.
Import ListNotations.
Open Scope N_scope.
Local Opaque show_N.

Lemma field_get : forall k j v, field_is k j v <-> json_get (S_ k) j = Some v.
Proof.
  intros k j v. unfold field_is, json_get. split.
  - intros (m & -> & E). rewrite entry_get in E. exact E.
  - destruct j; try discriminate. intro E. exists m. rewrite entry_get. split; [reflexivity | exact E].
Qed.
Lemma left_get : forall k j, left_out k j <-> json_get (S_ k) j = None.
Proof.
  intros k j. unfold left_out. split.
  - intro H. destruct (json_get (S_ k) j) as [v|] eqn:E; [|reflexivity]. exfalso. apply (H v), field_get, E.
  - intros E v H. apply field_get in H. congruence.
Qed.
Lemma given_get : forall A k j (f : json -> A) d, given k j f d (match json_get (S_ k) j with Some v => f v | None => d end).
Proof.
  intros A k j f d. split.
  - intros v H. apply field_get in H. rewrite H. reflexivity.
  - intro H. apply left_get in H. rewrite H. reflexivity.
Qed.
Lemma given_as : forall A k j (f : json -> A) d a, a = (match json_get (S_ k) j with Some v => f v | None => d end) -> given k j f d a.
Proof. intros A k j f d a ->. apply given_get. Qed.

Local Opaque given.
Lemma ok_inj : forall A (a b : A), @Ok A unit a = Ok b -> b = a.
Proof. intros A a b H. congruence. Qed.

Section Reading.
Variable w : world.
Variable x : externals.

Lemma headers_read : forall j, given "headers" j (headers_meaning w) None (headers_from_json w j).
Proof.
  intro j. apply given_as. unfold headers_from_json. destruct (json_get (S_ "headers") j) as [v|]; [|reflexivity]. destruct v; try reflexivity.
Qed.
Lemma type_from_header : forall h o, (match h with
    | Some h => match find_header w h (S_ "content-type") with
                | Some (v :: _) => Ok (parse_mime x v)
                | Some [] => Panic
                | None => Ok None
                end
    | None => @Ok _ unit None
    end) = Ok o -> o = header_type w x h.
Proof. intros [h|] o; cbn [header_type]; [|congruence]. destruct (find_header w h (S_ "content-type")) as [[|v l]|]; congruence. Qed.
Lemma type_read : forall h attrs t, content_type_from_json w x h attrs = Ok t ->
  given "contentType" (JObj attrs) (fun v => parse_mime x (json_to_string w v)) (header_type w x h) t.
Proof.
  intros h attrs t H. apply given_as. cbn [json_get]. unfold content_type_from_json in H. destruct (obj_get (S_ "contentType") attrs) as [v|]; [congruence|].
  apply type_from_header, H.
Qed.
Lemma bytes_read : forall attrs c t, content_bytes w (JObj attrs) c t (read_bytes w c (encoding_of w attrs) t).
Proof.
  intros attrs c t. unfold read_bytes.
  assert (PL : plain (JObj attrs) <-> fst (encoding_of w attrs) = false).
  { unfold plain. rewrite left_get, field_get. cbn [json_get]. unfold encoding_of. destruct (obj_get (S_ "encoded") attrs) as [[| [] | | | | ]|]; cbn [fst]; split; intros H; try discriminate; try (destruct H; discriminate); auto. }
  assert (BS : says_base64 w (JObj attrs) <-> fst (encoding_of w attrs) = true /\ snd (encoding_of w attrs) = S_ "base64").
  { unfold says_base64. split.
    - intros (v & F & M). apply field_get in F. cbn [json_get] in F. unfold encoding_of. rewrite F. destruct v; cbn [fst snd]; try contradiction; (split; [reflexivity | exact M]).
    - intros [F M]. unfold encoding_of in F, M. destruct (obj_get (S_ "encoded") attrs) as [v|] eqn:E; [|discriminate]. exists v. split; [apply field_get; exact E|].
      destruct v; cbn [fst snd] in F, M; try exact M. subst b. discriminate. }
  destruct (fst (encoding_of w attrs)) eqn:EN.
  - destruct (str_eqb_spec (snd (encoding_of w attrs)) (S_ "base64")) as [E|NE].
    + destruct (b64_decode (json_to_string w c)) as [b|] eqn:D.
      * apply cb_decoded; [apply BS; split; [reflexivity | exact E] | exact D].
      * apply cb_text; [intros _; exact D | intro P; apply PL in P; discriminate].
    + apply cb_text; [intro B; apply BS in B as [_ B]; congruence | intro P; apply PL in P; discriminate].
  - assert (NB : ~ says_base64 w (JObj attrs)) by (intro B; apply BS in B as [B _]; discriminate).
    destruct t as [ct|].
    + destruct (is_json ct) eqn:J.
      * assert (c = JStr [] \/ c <> JStr []) as [->|NE] by (destruct c as [| | |[|]| |]; try (right; discriminate); left; reflexivity).
        -- apply cb_empty; [apply PL; reflexivity | reflexivity].
        -- assert ((match c with JStr [] => [] | _ => utf8 (json_show w c) end) = utf8 (json_show w c)) as -> by (destruct c as [| | |[|]| |]; congruence).
           apply (cb_json w _ _ _ ct); [apply PL; reflexivity | reflexivity | exact J | exact NE].
      * apply cb_text; [intro B; contradiction | intros _ ct' Z; congruence].
    + apply cb_text; [intro B; contradiction | intros _ ct' Z; discriminate].
Qed.
Lemma hint_read : forall attrs, given "contentTypeHint" (JObj attrs) hint_meaning None (hint_of attrs).
Proof.
  intro attrs. apply given_as. cbn [json_get]. unfold hint_of. destruct (obj_get (S_ "contentTypeHint") attrs) as [v|]; [|reflexivity]. destruct v; try reflexivity.
  cbn [hint_meaning]. unfold hint_parse. destruct (str_eqb s (S_ "BINARY")); [reflexivity|]. destruct (str_eqb s (S_ "TEXT")); [reflexivity|]. destruct (str_eqb s (S_ "DEFAULT")); reflexivity.
Qed.
(** A body in a V4 file. *)
Theorem C114_body : forall f h j b, body_from_json w x j (S_ f) h = Ok b -> reads_body w x f h j b.
Proof.
  intros f h j b H. unfold body_from_json in H. destruct (json_get (S_ f) j) as [v|] eqn:E; [|injection H as <-; apply rb_missing, left_get, E].
  assert (F : field_is f j v) by (apply field_get; exact E).
  destruct v as [|bo|n|s|l|attrs]; try (apply ok_inj in H; subst b; first [apply rb_null; exact F | apply rb_bare; [exact F | discriminate | discriminate]]).
  destruct (obj_get (S_ "content") attrs) as [c|] eqn:C; [|injection H as <-; eapply rb_no_content; [reflexivity | exact F | apply left_get; exact C]].
  assert (FC : field_is "content" (JObj attrs) c) by (apply field_get; exact C).
  destruct (match c with JNull => true | _ => false end) eqn:NU.
  - destruct c; try discriminate. injection H as <-. eapply rb_null_content; [exact F | exact FC].
  - assert (c <> JNull) as NC by (destruct c; discriminate).
    assert (bind (content_type_from_json w x h attrs) (fun ct =>
            let bytes := read_bytes w c (encoding_of w attrs) ct in
            match bytes with
            | [] => Ok BEmpty
            | _ => Ok (BPresent bytes (Some (match ct with
                                             | Some c => c
                                             | None => match detect_bytes x bytes with Some c => c | None => ct_default end
                                             end)) (hint_of attrs))
            end) = Ok b) as H' by (destruct c; [congruence | exact H | exact H | exact H | exact H | exact H]).
    clear H. destruct (content_type_from_json w x h attrs) as [t| |] eqn:T; try discriminate. cbn [bind] in H'. cbv zeta in H'.
    apply (rb_content w x f h j (JObj attrs) c t (read_bytes w c (encoding_of w attrs) t) (hint_of attrs)); try assumption.
    + apply type_read, T.
    + apply bytes_read.
    + apply hint_read.
    + destruct (read_bytes w c (encoding_of w attrs) t); injection H' as <-; reflexivity.
Qed.
(** A body in an older file. *)
Theorem C114_old_body : forall f h j b, old_body_from_json w x j (S_ f) h = Ok b -> reads_old_body w x f h j b.
Proof.
  intros f h j b H. unfold old_body_from_json in H. destruct (declared_type w x h) as [t| |] eqn:T; try discriminate. cbn [bind] in H. apply type_from_header in T. subst t.
  destruct (json_get (S_ f) j) as [v|] eqn:E; [|injection H as <-; apply ro_missing, left_get, E].
  assert (F : field_is f j v) by (apply field_get; exact E).
  destruct v as [|bo|n|s|l|attrs]; try (apply ok_inj in H; subst b; first [apply ro_null; exact F | apply ro_json; [exact F | discriminate | discriminate]]).
  destruct s as [|c s]; [injection H as <-; apply ro_empty; exact F|]. cbv zeta in H.
  set (t := match header_type w x h with Some c0 => c0 | None => detect_text x (c :: s) end) in *.
  destruct (is_json t) eqn:J; [|destruct (is_text t) eqn:TX].
  - apply ok_inj in H; subst b. apply (ro_json_text w x f h j (c :: s) t); try assumption; try reflexivity; [discriminate|].
    unfold json_parsable. destruct (json_of_bytes x (utf8 (c :: s))) as [[]|]; reflexivity.
  - apply ok_inj in H; subst b. apply (ro_text w x f h j (c :: s) t); try assumption; try reflexivity. discriminate.
  - apply ok_inj in H; subst b. apply (ro_binary w x f h j (c :: s) t); try assumption; try reflexivity. discriminate.
Qed.
Lemma no_rules_read : forall j r, rules_read w j = Ok r -> left_out "matchingRules" j -> r = [].
Proof. intros j r H L. apply left_get in L. unfold rules_read in H. rewrite L in H. cbn in H. congruence. Qed.
Lemma no_old_rules_read : forall n j r, old_rules_read w (Some (S_ n)) j = Ok r -> left_out "matchingRules" j -> left_out n j -> r = [].
Proof. intros n j r H L L'. apply left_get in L, L'. unfold old_rules_read in H. rewrite L, L' in H. cbn in H. congruence. Qed.

Theorem C114_request : forall j r g, request_from_json w x j = Ok (r, g) -> reads_request w x j r.
Proof.
  intros j r g H. unfold request_from_json in H. cbv zeta in H. destruct (body_from_json w x j (S_ "body") (headers_from_json w j)) as [b| |] eqn:B; try discriminate.
  destruct (rules_read w j) as [rs| |] eqn:R; try discriminate. destruct (generators_read w j) as [gs| |]; try discriminate. cbn [bind] in H. apply ok_inj in H; apply (f_equal fst) in H; cbn [fst] in H. subst.
  unfold reads_request. cbn [req_method req_path req_query req_headers req_body req_rules]. repeat (apply conj).
  1,2: apply given_as; destruct (json_get _ j); reflexivity.
  - apply given_as. destruct (json_get (S_ "query") j) as [v|]; [|reflexivity]. unfold v3_query_from_json, query_meaning. destruct v; try reflexivity.
    f_equal. apply map_ext. intros [k v]. cbn [fst snd]. destruct v; reflexivity.
  - apply headers_read.
  - apply C114_body, B.
  - apply no_rules_read, R.
Qed.
Lemma status_read : forall j n, match json_get (S_ "status") j with
        | Some (JNum (PosInt n)) => Ok (n mod 65536)
        | Some _ => Panic
        | None => @Ok _ unit 200
        end = Ok n -> reads_status j n.
Proof.
  intros j n H. destruct (json_get (S_ "status") j) as [v|] eqn:E.
  - destruct v as [| |[k| |]| | |]; try discriminate. right. exists k. split; [apply field_get; exact E | congruence].
  - left. split; [apply left_get, E | congruence].
Qed.
Theorem C114_response : forall j r g, response_from_json w x j = Ok (r, g) -> reads_response w x j r.
Proof.
  intros j r g H. unfold response_from_json in H. cbv zeta in H.
  match type of H with bind ?a _ = _ => destruct a as [st| |] eqn:ST; try discriminate end. cbn [bind] in H.
  destruct (body_from_json w x j (S_ "body") (headers_from_json w j)) as [b| |] eqn:B; try discriminate.
  destruct (rules_read w j) as [rs| |] eqn:R; try discriminate. destruct (generators_read w j) as [gs| |]; try discriminate. cbn [bind] in H. apply ok_inj in H; apply (f_equal fst) in H; cbn [fst] in H. subst.
  unfold reads_response. cbn [resp_status resp_headers resp_body resp_rules]. repeat (apply conj).
  - apply status_read, ST.
  - apply headers_read.
  - apply C114_body, B.
  - apply no_rules_read, R.
Qed.
Lemma contents_read : forall j m g, contents_from_json w x j = Ok (m, g) -> reads_message w x j m.
Proof.
  intros j m g H. unfold contents_from_json in H. cbv zeta in H. set (md := match json_get (S_ "metadata") j with Some (JObj m) => m | _ => [] end) in *.
  destruct (body_from_json w x j (S_ "contents") (metadata_to_headers w md)) as [b| |] eqn:B; try discriminate.
  destruct (rules_read w j) as [rs| |] eqn:R; try discriminate. destruct (generators_read w j) as [gs| |]; try discriminate. cbn [bind] in H. apply ok_inj in H; apply (f_equal fst) in H; cbn [fst] in H. subst.
  unfold reads_message. cbn [msg_metadata msg_contents msg_rules]. repeat (apply conj).
  - apply given_as. unfold md. destruct (json_get (S_ "metadata") j) as [[]|]; reflexivity.
  - apply C114_body. unfold metadata_type. rewrite entry_get. exact B.
  - apply no_rules_read, R.
Qed.
Theorem C114_message : forall j m g, message_from_json w x j = Ok (m, g) -> reads_message w x j m.
Proof. intros j m g H. unfold message_from_json in H. destruct j; try discriminate. apply (contents_read _ m g), H. Qed.
Theorem C114_old_request : forall v j r g, old_request_from_json w x v j = Ok (r, g) -> reads_old_request w x v j r.
Proof.
  intros v j r g H. unfold old_request_from_json in H. cbv zeta in H. destruct (old_body_from_json w x j (S_ "body") (headers_from_json w j)) as [b| |] eqn:B; try discriminate.
  destruct (old_rules_read w _ j) as [rs| |] eqn:R; try discriminate. destruct (generators_read w j) as [gs| |]; try discriminate. cbn [bind] in H. apply ok_inj in H; apply (f_equal fst) in H; cbn [fst] in H. subst.
  unfold reads_old_request. cbn [req_method req_path req_query req_headers req_body req_rules]. repeat (apply conj).
  1,2: apply given_as; destruct (json_get _ j); reflexivity.
  - apply given_as. destruct (json_get (S_ "query") j) as [q|]; [|reflexivity]. destruct v; try reflexivity. cbn [is_v3]. unfold v3_query_from_json, query_meaning. destruct q; try reflexivity.
    f_equal. apply map_ext. intros [k v]. cbn [fst snd]. destruct v; reflexivity.
  - apply headers_read.
  - apply C114_old_body, B.
  - apply no_old_rules_read, R.
Qed.
Theorem C114_old_response : forall j r g, old_response_from_json w x j = Ok (r, g) -> reads_old_response w x j r.
Proof.
  intros j r g H. unfold old_response_from_json in H. cbv zeta in H.
  match type of H with bind ?a _ = _ => destruct a as [st| |] eqn:ST; try discriminate end. cbn [bind] in H.
  destruct (old_body_from_json w x j (S_ "body") (headers_from_json w j)) as [b| |] eqn:B; try discriminate.
  destruct (old_rules_read w _ j) as [rs| |] eqn:R; try discriminate. destruct (generators_read w j) as [gs| |]; try discriminate. cbn [bind] in H. apply ok_inj in H; apply (f_equal fst) in H; cbn [fst] in H. subst.
  unfold reads_old_response. cbn [resp_status resp_headers resp_body resp_rules]. repeat (apply conj).
  - apply status_read, ST.
  - apply headers_read.
  - apply C114_old_body, B.
  - apply no_old_rules_read, R.
Qed.

(** ** Interactions *)
Theorem C114_states : forall j, reads_states w j (states_from_json w j).
Proof.
  intro j. unfold reads_states, states_from_json. split.
  - intros v F. apply field_get in F. rewrite F. destruct v as [| | | |l|]; try (right; split; [discriminate | reflexivity]). left. exists l. split; [reflexivity|].
    clear F. induction l as [|v l IH]; [constructor|]. cbn [map]. constructor; [|exact IH]. split; [apply given_get|]. apply given_as. cbn [state_from_json st_params].
    destruct (json_get (S_ "params") v) as [[]|]; reflexivity.
  - intro L. apply left_get in L. rewrite L. split.
    + intros v F. apply field_get in F. rewrite F. cbn [Http.or_else]. destruct v as [| | |[|c s]| |]; reflexivity.
    + intro L2. apply left_get in L2. rewrite L2. cbn [Http.or_else]. apply given_as. destruct (json_get (S_ "provider_state") j) as [v|]; [|reflexivity]. destruct v as [| | |[|c s]| |]; reflexivity.
Qed.
Local Opaque reads_states.
Lemma common_read : forall n j p, reads_common w n j (common_from_json w n j p).
Proof.
  intros n j p. unfold reads_common, common_from_json, extra_from_json. cbn [f_desc f_key f_id f_states f_extra x_pending x_comments x_transport x_plugin x_markup].
  repeat (apply conj).
  - apply given_get.
  - apply given_get.
  - apply given_get.
  - apply C114_states.
  - apply given_as. destruct (json_get (S_ "pending") j) as [[]|]; reflexivity.
  - apply given_as. destruct (json_get (S_ "comments") j) as [[]|]; reflexivity.
  - apply given_as. destruct (json_get (S_ "transport") j) as [v|]; reflexivity.
  - apply given_as. unfold plugin_config_from_json. destruct (json_get (S_ "pluginConfiguration") j) as [[]|]; reflexivity.
  - intros v F. apply field_get in F. rewrite F. unfold markup_from_json. cbn [fst snd]. split; apply given_get.
  - intro L. apply left_get in L. rewrite L. reflexivity.
Qed.
Lemma or_null_read : forall k j, SpecReading.or_null k j (PactFile.or_null (json_get (S_ k) j)).
Proof. intros k j. apply given_as. unfold PactFile.or_null. destruct (json_get (S_ k) j); reflexivity. Qed.
Lemma collect_each : forall A (f : json -> outcome A unit) vs l, collect (map f vs) = Ok l -> Forall2 (fun v a => f v = Ok a) vs l.
Proof.
  intros A f vs. induction vs as [|v vs IH]; intros l H; cbn [map collect] in H; [injection H as <-; constructor|].
  destruct (f v) as [a| |] eqn:E; try discriminate. cbn [bind] in H. destruct (collect (map f vs)) as [l'| |] eqn:C; try discriminate. cbn [bind] in H. injection H as <-.
  constructor; [exact E | apply IH; reflexivity].
Qed.
Theorem C114_interaction : forall n j i, interaction_from_json w x n j = Ok i -> reads_interaction w x n j i.
Proof.
  intros n j i H. unfold interaction_from_json in H. destruct (json_get (S_ "type") j) as [t|] eqn:T; [|discriminate]. apply field_get in T. cbv zeta in H.
  destruct (str_eqb_spec (json_to_string w t) (S_ "Synchronous/HTTP")) as [E|_]; [|destruct (str_eqb_spec (json_to_string w t) (S_ "Asynchronous/Messages")) as [E|_];
    [|destruct (str_eqb_spec (json_to_string w t) (S_ "Synchronous/Messages")) as [E|_]; [|discriminate]]].
  - destruct (request_from_json w x _) as [[q gq]| |] eqn:Q; try discriminate. cbn [bind] in H. destruct (response_from_json w x _) as [[r gr]| |] eqn:R; try discriminate. cbn [bind] in H. apply ok_inj in H; subst i.
    split; [apply common_read|]. exists t. cbn [common_from_json f_payload]. split; [exact T|]. split; [exact E|]. split.
    + eexists. split; [apply or_null_read | apply (C114_request _ _ _ Q)].
    + eexists. split; [apply or_null_read | apply (C114_response _ _ _ R)].
  - destruct (contents_from_json w x j) as [[m g]| |] eqn:M; try discriminate. cbn [bind] in H. apply ok_inj in H; subst i. split; [apply common_read|]. exists t. cbn [common_from_json f_payload].
    split; [exact T|]. split; [exact E|]. exact (contents_read _ _ _ M).
  - destruct (json_get (S_ "request") j) as [jq|] eqn:FQ; [|discriminate]. destruct (json_get (S_ "response") j) as [[| | | |vs|]|] eqn:FR; try discriminate.
    destruct (collect (map (message_from_json w x) vs)) as [l| |] eqn:C; try discriminate. cbn [bind] in H. destruct (message_from_json w x jq) as [[m g]| |] eqn:M; try discriminate. cbn [bind] in H. apply ok_inj in H; subst i.
    split; [apply common_read|]. exists t. cbn [common_from_json f_payload]. split; [exact T|]. split; [exact E|]. split.
    + exists jq. split; [apply field_get, FQ | exact (C114_message _ _ _ M)].
    + exists vs. split; [apply field_get, FR|]. apply collect_each in C. clear FR. induction C as [|v [m0 g0] vs0 l0 C1 C2 IH]; [constructor|]. constructor; [exact (C114_message _ _ _ C1) | exact IH].
Qed.
(** A V4 interaction without a type, or of another type, is refused, and with it the file. *)
Theorem C114_type_needed : forall n j, (left_out "type" j \/ exists t, field_is "type" j t /\ json_to_string w t <> S_ "Synchronous/HTTP" /\
    json_to_string w t <> S_ "Asynchronous/Messages" /\ json_to_string w t <> S_ "Synchronous/Messages") ->
  interaction_from_json w x n j = Err tt.
Proof.
  intros n j H. unfold interaction_from_json. destruct H as [H|(t & F & N1 & N2 & N3)].
  - apply left_get in H. rewrite H. reflexivity.
  - apply field_get in F. rewrite F. cbv zeta. destruct (str_eqb_spec (json_to_string w t) (S_ "Synchronous/HTTP")); [contradiction|].
    destruct (str_eqb_spec (json_to_string w t) (S_ "Asynchronous/Messages")); [contradiction|]. destruct (str_eqb_spec (json_to_string w t) (S_ "Synchronous/Messages")); [contradiction | reflexivity].
Qed.
Theorem C114_http_interaction : forall v n j i, http_from_json w x v n j = Ok i -> reads_http w x v n j i.
Proof.
  intros v n j i H. unfold http_from_json in H.
  match type of H with bind ?a _ = _ => destruct a as [[q gq]| |] eqn:Q; try discriminate end. cbn [bind] in H.
  match type of H with bind ?a _ = _ => destruct a as [[r gr]| |] eqn:R; try discriminate end. cbn [bind] in H. apply ok_inj in H; subst i.
  unfold reads_http. cbn [h_desc h_id h_states h_request h_response fst]. repeat (apply conj).
  - apply given_get.
  - apply given_get.
  - apply C114_states.
  - intros jq F. apply field_get in F. rewrite F in Q. exact (C114_old_request _ _ _ _ Q).
  - intro L. apply left_get in L. rewrite L in Q. injection Q as <- _. reflexivity.
  - intros jr F. apply field_get in F. rewrite F in R. exact (C114_old_response _ _ _ R).
  - intro L. apply left_get in L. rewrite L in R. injection R as <- _. reflexivity.
Qed.

(** ** Pacts *)
Lemma name_read : forall who j, name_is w who j (who_from_json w (S_ who) (json_get (S_ who) j)).
Proof.
  intros who j. unfold name_is, who_from_json. split.
  - intros v F. apply field_get in F. rewrite F. apply given_get.
  - intro L. apply left_get in L. rewrite L. reflexivity.
Qed.
Lemma numbered_read : forall A (f : nat -> json -> outcome A unit) vs s l, collect (map (fun nj => f (fst nj) (snd nj)) (number_from s vs)) = Ok l ->
  length l = length vs /\ forall n v i, nth_error vs n = Some v -> nth_error l n = Some i -> f (s + n)%nat v = Ok i.
Proof.
  intros A f vs. induction vs as [|v vs IH]; intros s l H; cbn [number_from map collect fst snd] in H; [injection H as <-; split; [reflexivity | intros []; discriminate]|].
  destruct (f s v) as [a| |] eqn:E; try discriminate. cbn [bind] in H. destruct (collect _) as [l'| |] eqn:C; try discriminate. cbn [bind] in H. injection H as <-.
  destruct (IH (S s) l' C) as [L IH']. split; [cbn [length]; rewrite L; reflexivity|]. intros [|n] v0 i N1 N2; cbn [nth_error] in N1, N2.
  - injection N1 as <-. injection N2 as <-. rewrite Nat.add_0_r. exact E.
  - rewrite <- Nat.add_succ_comm. exact (IH' n v0 i N1 N2).
Qed.
Lemma list_read : forall A (f : nat -> json -> outcome A unit) (reads : nat -> json -> A -> Prop) k j l, (forall n v i, f n v = Ok i -> reads n v i) ->
  match json_get (S_ k) j with Some (JArr vs) => collect (map (fun nj => f (fst nj) (snd nj)) (number_from 0 vs)) | _ => Ok [] end = Ok l -> one_each k reads j l.
Proof.
  intros A f reads k j l R H. split.
  - intros vs F. apply field_get in F. rewrite F in H. apply numbered_read in H as [L H]. split; [exact L|]. intros n v i N1 N2. apply R. exact (H n v i N1 N2).
  - intro N. destruct (json_get (S_ k) j) as [v|] eqn:E; [|congruence]. destruct v as [| | | |vs|]; try congruence. exfalso. apply (N vs), field_get, E.
Qed.
Theorem C114_pact : forall j p, pact_from_json w x j = Ok p -> reads_pact w x j p.
Proof.
  intros j p H. unfold pact_from_json in H. destruct (interactions_from_json w x j) as [l| |] eqn:L; try discriminate. cbn [bind] in H. cbv zeta in H. apply ok_inj in H; subst p.
  unfold reads_pact. cbn [vf_who consumer provider vf_ints]. split; [apply name_read|]. split; [apply name_read|].
  apply (list_read _ (interaction_from_json w x) _ _ _ _ C114_interaction). exact L.
Qed.
Theorem C114_http_pact : forall semver j p, determine_spec_version semver (parse_meta_data w j) <> SV4 -> http_pact_from_json w x semver j = Ok p ->
  reads_http_pact w x j p /\ hp_version p = determine_spec_version semver (parse_meta_data w j).
Proof.
  intros semver j p NV H. unfold http_pact_from_json in H. cbv zeta in H. set (v := determine_spec_version semver (parse_meta_data w j)) in *.
  assert (bind (match json_get (S_ "interactions") j with
            | Some (JArr l) => collect (map (fun nj => http_from_json w x v (fst nj) (snd nj)) (number_from 0 l))
            | _ => Ok []
            end) (fun l => Ok (mkHP (who_read w j) l (parse_meta_data w j) v)) = Ok p) as H' by (destruct v; [exact H | exact H | exact H | exact H | exact H | congruence]).
  clear H. match type of H' with bind ?a _ = _ => destruct a as [l| |] eqn:L; try discriminate end. cbn [bind] in H'. apply ok_inj in H'; subst p. split; [|reflexivity].
  unfold reads_http_pact. cbn [hp_who who_read consumer provider hp_ints hp_version]. split; [apply name_read|]. split; [apply name_read|].
  apply (list_read _ (http_from_json w x v) _ _ _ _ (C114_http_interaction v)). exact L.
Qed.
End Reading.
