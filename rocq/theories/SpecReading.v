(** Specification of the fields of a pact file: what each of them says, and what leaving it out says. *)
From Coq Require Import Ascii String List Arith NArith ZArith Lia Bool.
From Verif Require Import Base PathExp Json Text MatchingRules Matchers Headers Query QueryString ContentType SpecQuery Http Merge Generators Base64 PactFile OldFile.
Import ListNotations.
Open Scope N_scope.

(** The value [j] is an object in which the field [k] is [v]; it has no such field. *)
Definition field_is (k : string) (j v : json) : Prop := exists m, j = JObj m /\ entry (S_ k) m = Some v.
Definition left_out (k : string) (j : json) : Prop := forall v, ~ field_is k j v.
(** [a] is what the field says, or the default if it is left out. *)
Definition given {A} (k : string) (j : json) (meaning : json -> A) (default a : A) : Prop :=
  (forall v, field_is k j v -> a = meaning v) /\ (left_out k j -> a = default).

Section Reading.
Variable w : world.
Variable x : externals.
(** A text, or the JSON text of anything else. *)
Definition as_text (j : json) : str := match j with JStr s => s | _ => json_show w j end.

(** ** Query and headers *)
Definition query_meaning (j : json) : option query_map :=
  match j with
  | JStr s => parse_query_string s
  | JObj m => Some (map (fun kv => (fst kv,
      match snd kv with
      | JStr s => [Some s]
      | JArr l => map (fun i => match i with JStr s => Some s | JNull => None | _ => Some (json_show w (JArr l)) end) l
      | _ => []
      end)) m)
  | _ => None
  end.
(** Before V3, a query is a text. *)
Definition old_query_meaning (j : json) : option query_map := match j with JStr s => parse_query_string s | _ => None end.
(** A list of values; one text with the values separated by commas (unless the header has only one value); one value. *)
Definition values_meaning (name : str) (j : json) : list str :=
  match j with
  | JArr l => map as_text l
  | JStr s => if existsb (str_eqb (to_lower w name)) SINGLE_VALUE_HEADERS then [trim w s] else map (trim w) (split_on 44 s)
  | _ => [json_show w j]
  end.
Definition headers_meaning (j : json) : option hmap :=
  match j with JObj m => Some (map (fun kv => (fst kv, values_meaning (fst kv) (snd kv))) m) | _ => None end.

(** ** Bodies *)
(** The type declared by the headers: the first value of the content type header. *)
Definition header_type (h : option hmap) : option content_type :=
  match h with
  | None => None
  | Some h => match find_header w h (S_ "content-type") with Some (v :: _) => parse_mime x v | _ => None end
  end.
(** The body of a V4 file. *)
Definition says_base64 (attrs : json) : Prop :=
  exists v, field_is "encoded" attrs v /\ match v with JStr s => to_lower w s = S_ "base64" | JBool _ => False | _ => json_show w v = S_ "base64" end.
Definition plain (attrs : json) : Prop := left_out "encoded" attrs \/ field_is "encoded" attrs (JBool false).
Inductive content_bytes (attrs c : json) (t : option content_type) : list N -> Prop :=
| cb_decoded : forall b, says_base64 attrs -> b64_decode (json_to_string w c) = Some b -> content_bytes attrs c t b
| cb_json : forall ct, plain attrs -> t = Some ct -> is_json ct = true -> c <> JStr [] -> content_bytes attrs c t (utf8 (json_show w c))
| cb_empty : plain attrs -> c = JStr [] -> content_bytes attrs c t []
| cb_text : (says_base64 attrs -> b64_decode (json_to_string w c) = None) -> (plain attrs -> forall ct, t = Some ct -> is_json ct = false) ->
    content_bytes attrs c t (utf8 (json_to_string w c)).
Definition hint_meaning (j : json) : option hint :=
  match j with
  | JStr s => Some (if str_eqb s (S_ "BINARY") then HBinary else if str_eqb s (S_ "TEXT") then HTextual else HDefault)
  | _ => Some HDefault
  end.
Inductive reads_body (field : string) (h : option hmap) (j : json) : body -> Prop :=
| rb_missing : left_out field j -> reads_body field h j BMissing
| rb_null : field_is field j JNull -> reads_body field h j BNull
| rb_bare : forall v, field_is field j v -> (forall m, v <> JObj m) -> v <> JNull -> reads_body field h j (BPresent (utf8 (json_show w v)) None None)
| rb_no_content : forall attrs m, attrs = JObj m -> field_is field j attrs -> left_out "content" attrs -> reads_body field h j BMissing
| rb_null_content : forall attrs, field_is field j attrs -> field_is "content" attrs JNull -> reads_body field h j BNull
| rb_content : forall attrs c t b hint b', field_is field j attrs -> field_is "content" attrs c -> c <> JNull ->
    given "contentType" attrs (fun v => parse_mime x (json_to_string w v)) (header_type h) t ->
    content_bytes attrs c t b ->
    given "contentTypeHint" attrs hint_meaning None hint ->
    b' = match b with
         | [] => BEmpty
         | _ => BPresent b (Some (match t with Some t => t | None => match detect_bytes x b with Some t => t | None => ct_default end end)) hint
         end ->
    reads_body field h j b'.
(** The body of an older file: a text is text, JSON text or base64, depending on the type; null is no content; anything else is JSON. *)
Inductive reads_old_body (field : string) (h : option hmap) (j : json) : body -> Prop :=
| ro_missing : left_out field j -> reads_old_body field h j BMissing
| ro_null : field_is field j JNull -> reads_old_body field h j BNull
| ro_empty : field_is field j (JStr []) -> reads_old_body field h j BEmpty
| ro_json : forall v, field_is field j v -> (forall s, v <> JStr s) -> v <> JNull -> reads_old_body field h j (BPresent (utf8 (json_show w v)) None None)
| ro_text : forall s t, field_is field j (JStr s) -> s <> [] ->
    t = (match header_type h with Some t => t | None => detect_text x s end) -> is_json t = false -> is_text t = true ->
    reads_old_body field h j (BPresent (utf8 s) (Some t) None)
| ro_json_text : forall s t b, field_is field j (JStr s) -> s <> [] ->
    t = (match header_type h with Some t => t | None => detect_text x s end) -> is_json t = true ->
    b = (match json_of_bytes x (utf8 s) with Some (JStr _) | Some (JObj _) => utf8 s | _ => utf8 (S_ """" ++ s ++ S_ """") end) ->
    reads_old_body field h j (BPresent b (Some t) None)
| ro_binary : forall s t, field_is field j (JStr s) -> s <> [] ->
    t = (match header_type h with Some t => t | None => detect_text x s end) -> is_json t = false -> is_text t = false ->
    reads_old_body field h j (BPresent (match b64_decode s with Some b => b | None => utf8 s end) None None).

(** ** Requests, responses, messages *)
Definition reads_request (j : json) (r : request) : Prop :=
  given "method" j (fun v => to_upper w (as_text v)) (S_ "GET") (req_method r) /\
  given "path" j as_text (S_ "/") (req_path r) /\
  given "query" j query_meaning None (req_query r) /\
  given "headers" j headers_meaning None (req_headers r) /\
  reads_body "body" (req_headers r) j (req_body r) /\
  (left_out "matchingRules" j -> req_rules r = []).
(** The status is kept modulo 65536. *)
Definition reads_status (j : json) (n : N) : Prop :=
  (left_out "status" j /\ n = 200) \/ exists k, field_is "status" j (JNum (PosInt k)) /\ n = k mod 65536.
Definition reads_response (j : json) (r : response) : Prop :=
  reads_status j (resp_status r) /\ given "headers" j headers_meaning None (resp_headers r) /\
  reads_body "body" (resp_headers r) j (resp_body r) /\ (left_out "matchingRules" j -> resp_rules r = []).
Definition object_meaning (j : json) : list (str * json) := match j with JObj m => m | _ => [] end.
Definition metadata_type (md : list (str * json)) : option hmap :=
  match entry (S_ "contentType") md with Some v => Some [(S_ "Content-Type", [json_to_string w v])] | None => None end.
Definition reads_message (j : json) (m : message) : Prop :=
  given "metadata" j object_meaning [] (msg_metadata m) /\
  reads_body "contents" (metadata_type (msg_metadata m)) j (msg_contents m) /\
  (left_out "matchingRules" j -> msg_rules m = []).
Definition reads_old_request (v : spec_version) (j : json) (r : request) : Prop :=
  given "method" j (fun v => to_upper w (as_text v)) (S_ "GET") (req_method r) /\
  given "path" j as_text (S_ "/") (req_path r) /\
  given "query" j (match v with SV3 => query_meaning | _ => old_query_meaning end) None (req_query r) /\
  given "headers" j headers_meaning None (req_headers r) /\
  reads_old_body "body" (req_headers r) j (req_body r) /\
  (left_out "matchingRules" j -> left_out "requestMatchingRules" j -> req_rules r = []).
Definition reads_old_response (j : json) (r : response) : Prop :=
  reads_status j (resp_status r) /\ given "headers" j headers_meaning None (resp_headers r) /\
  reads_old_body "body" (resp_headers r) j (resp_body r) /\
  (left_out "matchingRules" j -> left_out "responseMatchingRules" j -> resp_rules r = []).

(** ** Interactions *)
(** The states: a list, or one name in one of two fields. *)
Definition state_meaning (j : json) (s : pstate) : Prop :=
  given "name" j as_text (S_ "unknown provider states") (st_name s) /\ given "params" j object_meaning [] (st_params s).
Definition one_state (j : json) : list pstate :=
  match j with JNull => [] | JStr s => match s with [] => [] | _ => [mkState s []] end | _ => [mkState (json_show w j) []] end.
Definition reads_states (j : json) (l : list pstate) : Prop :=
  (forall v, field_is "providerStates" j v -> (exists vs, v = JArr vs /\ Forall2 state_meaning vs l) \/ ((forall vs, v <> JArr vs) /\ l = [])) /\
  (left_out "providerStates" j ->
    (forall v, field_is "providerState" j v -> l = one_state v) /\
    (left_out "providerState" j -> given "provider_state" j one_state [] l)).
Definition bool_meaning (j : json) : bool := match j with JBool b => b | _ => false end.
Definition some_text (j : json) : option str := Some (json_to_string w j).
Definition or_null (k : string) (j j' : json) : Prop := given k j (fun v => v) JNull j'.
Definition plugin_meaning (j : json) : list (str * list (str * json)) :=
  match j with JObj m => map (fun kv => (fst kv, object_meaning (snd kv))) m | _ => [] end.
Definition text_field (k : string) (j : json) (s : str) : Prop := given k j (json_to_string w) [] s.
(** What all kinds of V4 interactions have. *)
Definition reads_common (index : nat) (j : json) (i : file_interaction) : Prop :=
  given "description" j as_text (S_ "Interaction " ++ show_N (N.of_nat index)) (f_desc i) /\
  given "key" j some_text None (f_key i) /\ given "_id" j some_text None (f_id i) /\ reads_states j (f_states i) /\
  given "pending" j bool_meaning false (x_pending (f_extra i)) /\ given "comments" j object_meaning [] (x_comments (f_extra i)) /\
  given "transport" j (fun v => Some (as_text v)) None (x_transport (f_extra i)) /\
  given "pluginConfiguration" j plugin_meaning [] (x_plugin (f_extra i)) /\
  (forall v, field_is "interactionMarkup" j v -> text_field "markup" v (fst (x_markup (f_extra i))) /\ text_field "markupType" v (snd (x_markup (f_extra i)))) /\
  (left_out "interactionMarkup" j -> x_markup (f_extra i) = ([], [])).
Definition reads_payload (j : json) (p : file_payload) : Prop :=
  exists t, field_is "type" j t /\
  match p with
  | FHttp q r => json_to_string w t = S_ "Synchronous/HTTP" /\
      (exists jq, or_null "request" j jq /\ reads_request jq (fst q)) /\ (exists jr, or_null "response" j jr /\ reads_response jr (fst r))
  | FAsync m => json_to_string w t = S_ "Asynchronous/Messages" /\ reads_message j (fst m)
  | FSync q l => json_to_string w t = S_ "Synchronous/Messages" /\
      (exists jq, field_is "request" j jq /\ reads_message jq (fst q)) /\
      (exists vs, field_is "response" j (JArr vs) /\ Forall2 (fun v m => reads_message v (fst m)) vs l)
  end.
Definition reads_interaction (index : nat) (j : json) (i : file_interaction) : Prop := reads_common index j i /\ reads_payload j (f_payload i).
Definition default_request : request := mkReq (S_ "GET") (S_ "/") None None BMissing [].
Definition default_response : response := mkResp 200 None BMissing [].
Definition reads_http (v : spec_version) (index : nat) (j : json) (i : http_interaction) : Prop :=
  given "description" j as_text (S_ "Interaction " ++ show_N (N.of_nat index)) (h_desc i) /\
  given "_id" j some_text None (h_id i) /\ reads_states j (h_states i) /\
  (forall q, field_is "request" j q -> reads_old_request v q (fst (h_request i))) /\ (left_out "request" j -> fst (h_request i) = default_request) /\
  (forall r, field_is "response" j r -> reads_old_response r (fst (h_response i))) /\ (left_out "response" j -> fst (h_response i) = default_response).

(** ** Pacts *)
Definition name_is (who : string) (j : json) (s : str) : Prop :=
  (forall v, field_is who j v -> given "name" v as_text (S_ who) s) /\ (left_out who j -> s = S_ who).
(** One interaction for every element of the list, in order; a field that is no list counts as an empty one. *)
Definition one_each {I} (field : string) (reads : nat -> json -> I -> Prop) (j : json) (l : list I) : Prop :=
  (forall vs, field_is field j (JArr vs) -> length l = length vs /\ forall n v i, nth_error vs n = Some v -> nth_error l n = Some i -> reads n v i) /\
  ((forall vs, ~ field_is field j (JArr vs)) -> l = []).
Definition reads_pact (j : json) (p : v4_file) : Prop :=
  name_is "consumer" j (consumer (vf_who p)) /\ name_is "provider" j (provider (vf_who p)) /\ one_each "interactions" reads_interaction j (vf_ints p).
Definition reads_http_pact (j : json) (p : http_pact) : Prop :=
  name_is "consumer" j (consumer (hp_who p)) /\ name_is "provider" j (provider (hp_who p)) /\
  one_each "interactions" (reads_http (hp_version p)) j (hp_ints p).
End Reading.

(** ** Messages of a V3 file *)
Section OldMessages.
Variable w : world.
Variable x : externals.
Definition names_type (k : str) : Prop := map ascii_low k = S_ "contenttype" \/ map ascii_low k = S_ "content-type".
(** The first entry of the metadata that names the type. *)
Inductive type_in : list (str * json) -> option json -> Prop :=
| ti_none : type_in [] None
| ti_here : forall k v l, names_type k -> type_in ((k, v) :: l) (Some v)
| ti_later : forall k v l o, ~ names_type k -> type_in l o -> type_in ((k, v) :: l) o.
Definition old_metadata_is (j : json) (md : list (str * json)) : Prop :=
  (forall v, field_is "metaData" j v -> md = object_meaning v) /\ (left_out "metaData" j -> given "metadata" j object_meaning [] md).
Definition reads_old_message (index : nat) (j : json) (m : old_message) : Prop :=
  given "description" j (as_text w) (S_ "Message " ++ show_N (N.of_nat index)) (om_desc m) /\
  given "_id" j (some_text w) None (om_id m) /\ reads_states w j (om_states m) /\ snd (om_body m) = [] /\
  let c := fst (om_body m) in
  old_metadata_is j (msg_metadata c) /\ (left_out "matchingRules" j -> msg_rules c = []) /\
  exists o, type_in (msg_metadata c) o /\
    match (match o with Some v => parse_mime x (json_to_string w v) | None => None end) with
    | None => reads_old_body w x "contents" None j (msg_contents c)
    | Some t => exists b, reads_old_body w x "contents" (Some [(S_ "content-type", [ct_show t])]) j b /\
                  msg_contents c = match b with BPresent bytes _ h => BPresent bytes (Some t) h | b => b end
    end.
Definition reads_message_pact (j : json) (p : message_file) : Prop :=
  name_is w "consumer" j (consumer (mf_who p)) /\ name_is w "provider" j (provider (mf_who p)) /\ one_each "messages" reads_old_message j (mf_msgs p).
(** The version of the specification a file is read as. *)
Definition version_meaning (v : option (N * N)) : spec_version :=
  match v with
  | None => SUnknown
  | Some (major, minor) => if major =? 1 then (if minor =? 1 then SV1_1 else SV1) else if major =? 2 then SV2 else if major =? 3 then SV3 else if major =? 4 then SV4 else SUnknown
  end.
(** A file says its version under one of two names. *)
Definition says_version (j : json) (name : string) (v : json) : Prop :=
  exists md spec, field_is "metadata" j md /\ field_is name md spec /\ field_is "version" spec v.
End OldMessages.
