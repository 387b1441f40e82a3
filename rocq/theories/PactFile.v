(** Model of V4 pact files: writing a pact as JSON and reading it back.
    rust/pact_models/src/v4/pact.rs, v4/interaction.rs, v4/synch_http.rs, v4/async_message.rs, v4/sync_message.rs,
    v4/http_parts.rs, v4/message_parts.rs, v4/mod.rs, bodies.rs, provider_states.rs, plugins.rs, lib.rs (Consumer, Provider).

    The parsing of the file's text into a JSON value and its printing are serde_json's. A hash map is the list of its
    entries in the order of iteration. Errors are not told apart. *)
From Coq Require Import Ascii String List Arith NArith ZArith Lia Bool.
From Verif Require Import Base PathExp Json Text MatchingRules Matchers JsonCompare Headers Query QueryString ContentType Http Merge Expr Generators Base64.
Import ListNotations.
Open Scope N_scope.

(** An error of a part is an error of the whole. *)
Definition lift {A E} (m : outcome A E) : outcome A unit :=
  match m with Ok a => Ok a | Err _ => Err tt | Panic => Panic end.
Fixpoint collect {A} (l : list (outcome A unit)) : outcome (list A) unit :=
  match l with
  | [] => Ok []
  | m :: l' => bind m (fun a => bind (collect l') (fun r => Ok (a :: r)))
  end.
Definition optional {A} (k : str) (f : A -> json) (v : option A) : list (str * json) :=
  match v with Some a => [(k, f a)] | None => [] end.

(** * Bodies *)
(** content_types.rs:328-336 [Display] and 338-349 [TryFrom<&str>] of ContentTypeHint. *)
Definition hint_show (h : hint) : str := match h with HBinary => S_ "BINARY" | HTextual => S_ "TEXT" | HDefault => S_ "DEFAULT" end.
Definition hint_parse (s : str) : option hint :=
  if str_eqb s (S_ "BINARY") then Some HBinary
  else if str_eqb s (S_ "TEXT") then Some HTextual
  else if str_eqb s (S_ "DEFAULT") then Some HDefault else None.

Section File.
Variable w : world.
Variable x : externals.

(** bodies.rs:148-183 [to_v4_json]. *)
Definition in_base64 (bytes : list N) : json * json := (JStr (b64_encode bytes), JStr (S_ "base64")).
Definition written_content (bytes : list N) (ct : content_type) (h : option hint) : json * json :=
  if is_json ct then
    match json_of_bytes x bytes with Some j => (j, JBool false) | None => in_base64 bytes end
  else if (match h with Some HBinary => true | _ => false end) || is_binary ct then in_base64 bytes
  else match from_utf8 bytes with Some s => (JStr s, JBool false) | None => in_base64 bytes end.
Definition body_to_v4_json (b : body) : json :=
  match b with
  | BPresent bytes ct h =>
      let ct := match ct with Some c => c | None => ct_default end in
      let (contents, encoded) := written_content bytes ct h in
      JObj (obj_of_list ([(S_ "content", contents); (S_ "contentType", JStr (ct_show ct))] ++
        optional (S_ "contentTypeHint") (fun h => JStr (hint_show h)) h ++ [(S_ "encoded", encoded)]))
  | BEmpty => JObj [(S_ "content", JStr [])]
  | _ => JNull
  end.
(** bodies.rs:131-139 [with_content_type_if_not_set]. *)
Definition with_content_type_if_not_set (b : body) (ct : option content_type) : body :=
  match b with BPresent bytes ct' h => BPresent bytes (Http.or_else ct' ct) h | b => b end.
(** v4/mod.rs:64-78 [calc_content_type]; [v[0]] panics for a header without values. *)
Definition calc_content_type (b : body) (headers : option hmap) : outcome (option content_type) unit :=
  match body_content_type b with
  | Some ct => Ok (Some ct)
  | None =>
      bind (match headers with
            | Some h => match find_header w h (S_ "content-type") with
                        | Some (v :: _) => Ok (parse_mime x v)
                        | Some [] => Panic
                        | None => Ok None
                        end
            | None => Ok None
            end) (fun o =>
        Ok (Http.or_else o (if body_present b then detect_bytes x (body_bytes b) else None)))
  end.

(** v4/http_parts.rs:385-414 [content_type_from_json]. *)
Definition content_type_from_json (headers : option hmap) (attrs : list (str * json)) : outcome (option content_type) unit :=
  match obj_get (S_ "contentType") attrs with
  | Some v => Ok (parse_mime x (json_to_string w v))
  | None => match headers with
            | Some h => match find_header w h (S_ "content-type") with
                        | Some (v :: _) => Ok (parse_mime x v)
                        | Some [] => Panic
                        | None => Ok None
                        end
            | None => Ok None
            end
  end.
(** v4/http_parts.rs:280-287: the attribute "encoded". *)
Definition encoding_of (attrs : list (str * json)) : bool * str :=
  match obj_get (S_ "encoded") attrs with
  | Some (JStr s) => (true, to_lower w s)
  | Some (JBool b) => (b, [])
  | Some v => (true, json_show w v)
  | None => (false, [])
  end.
(** 289-305: the attribute "contentTypeHint". *)
Definition hint_of (attrs : list (str * json)) : option hint :=
  match obj_get (S_ "contentTypeHint") attrs with
  | Some (JStr s) => Some (match hint_parse s with Some h => h | None => HDefault end)
  | Some _ => Some HDefault
  | None => None
  end.
(** 307-341: the bytes of the body. *)
Definition read_bytes (contents : json) (encoding : bool * str) (ct : option content_type) : list N :=
  let raw := utf8 (json_to_string w contents) in
  if fst encoding then
    if str_eqb (snd encoding) (S_ "base64") then
      match b64_decode (json_to_string w contents) with Some bytes => bytes | None => raw end
    else raw
  else match ct with
       | Some ct => if is_json ct then
                      match contents with JStr [] => [] | _ => utf8 (json_show w contents) end
                    else raw
       | None => raw
       end.
(** v4/http_parts.rs:265-383 [body_from_json]. *)
Definition body_from_json (j : json) (attr : str) (headers : option hmap) : outcome body unit :=
  match json_get attr j with
  | Some (JObj attrs) =>
      match obj_get (S_ "content") attrs with
      | Some JNull => Ok BNull
      | Some contents =>
          bind (content_type_from_json headers attrs) (fun ct =>
            let bytes := read_bytes contents (encoding_of attrs) ct in
            match bytes with
            | [] => Ok BEmpty
            | _ => Ok (BPresent bytes (Some (match ct with
                                             | Some c => c
                                             | None => match detect_bytes x bytes with Some c => c | None => ct_default end
                                             end)) (hint_of attrs))
            end)
      | None => Ok BMissing
      end
  | Some JNull => Ok BNull
  | Some v => Ok (BPresent (utf8 (json_show w v)) None None)
  | None => Ok BMissing
  end.

(** * Requests, responses and messages *)
(** "matchingRules" and "generators" (matchingrules/mod.rs:1511-1546, 1250-1257; generators/mod.rs:519-526, 702-727).
    Writing a rule that refers to another one by name panics ([rule_to_json_outcome]). *)
Definition mr_is_empty (m : matching_rules) : bool := forallb (fun nc => cat_is_empty (snd nc)) m.
Definition rules_written (m : matching_rules) : outcome (list (str * json)) unit :=
  if mr_is_empty m then Ok []
  else if existsb (fun nc => existsb (fun pr => existsb has_unresolved (rl_rules (snd pr))) (cat_rules (snd nc))) m then Panic
  else Ok [(S_ "matchingRules", mr_to_v3_json m)].
Definition generators_written (g : generators) : list (str * json) :=
  if gens_is_empty g then [] else [(S_ "generators", gens_to_json g)].
Definition rules_read (j : json) : outcome matching_rules unit := lift (matchers_from_json w (json_get (S_ "matchingRules") j)).
Definition generators_read (j : json) : outcome generators unit := lift (generators_from_json w j).
(** v4/http_parts.rs:93-100: the headers, as lists of texts. *)
Definition headers_to_v4_json (m : hmap) : json := JObj (obj_of_list (map (fun kv => (fst kv, JArr (map JStr (snd kv)))) m)).
Definition body_field (name : str) (b : body) : list (str * json) :=
  match body_to_v4_json b with JObj m => [(name, JObj m)] | _ => [] end.

(** v4/http_parts.rs:80-119 [HttpRequest::to_json]. *)
Definition request_to_json (r : request) (g : generators) : outcome json unit :=
  bind (calc_content_type (req_body r) (req_headers r)) (fun ct =>
  bind (rules_written (req_rules r)) (fun rules =>
    Ok (JObj (obj_of_list (
      [(S_ "method", JStr (to_upper w (req_method r))); (S_ "path", JStr (req_path r))] ++
      optional (S_ "query") query_to_json (req_query r) ++ optional (S_ "headers") headers_to_v4_json (req_headers r) ++
      body_field (S_ "body") (with_content_type_if_not_set (req_body r) ct) ++ rules ++ generators_written g))))).
(** [Value::String] as it is, other values as their text. *)
Definition text_or_shown (j : json) : str := match j with JStr s => s | v => json_show w v end.
(** v4/http_parts.rs:49-78 [HttpRequest::from_json]. *)
Definition request_from_json (j : json) : outcome (request * generators) unit :=
  let headers := headers_from_json w j in
  bind (body_from_json j (S_ "body") headers) (fun b =>
  bind (rules_read j) (fun rules =>
  bind (generators_read j) (fun g =>
    Ok (mkReq (match json_get (S_ "method") j with Some v => to_upper w (text_or_shown v) | None => S_ "GET" end)
              (match json_get (S_ "path") j with Some v => text_or_shown v | None => S_ "/" end)
              (match json_get (S_ "query") j with Some v => v3_query_from_json w v | None => None end)
              headers b rules, g)))).

(** v4/http_parts.rs:532-566 [HttpResponse::to_json]: here the content type of a header is not put in. *)
Definition response_to_json (r : response) (g : generators) : outcome json unit :=
  bind (rules_written (resp_rules r)) (fun rules =>
    Ok (JObj (obj_of_list (
      [(S_ "status", JNum (PosInt (resp_status r)))] ++ optional (S_ "headers") headers_to_v4_json (resp_headers r) ++
      body_field (S_ "body") (resp_body r) ++ rules ++ generators_written g)))).
(** v4/http_parts.rs:514-529 [HttpResponse::from_json]; [as_u64().unwrap() as u16]. *)
Definition response_from_json (j : json) : outcome (response * generators) unit :=
  bind (match json_get (S_ "status") j with
        | Some (JNum (PosInt n)) => Ok (n mod 65536)
        | Some _ => Panic
        | None => Ok 200
        end) (fun status =>
  let headers := headers_from_json w j in
  bind (body_from_json j (S_ "body") headers) (fun b =>
  bind (rules_read j) (fun rules =>
  bind (generators_read j) (fun g =>
    Ok (mkResp status headers b rules, g))))).

(** v4/message_parts.rs:179-185 [metadata_to_headers]. *)
Definition metadata_to_headers (md : list (str * json)) : option hmap :=
  match obj_get (S_ "contentType") md with
  | Some v => Some [(S_ "Content-Type", [json_to_string w v])]
  | None => None
  end.
Definition map_written (name : str) (m : list (str * json)) : list (str * json) :=
  match m with [] => [] | _ => [(name, JObj (obj_of_list m))] end.
(** v4/message_parts.rs:60-87 [MessageContents::to_json]. *)
Definition message_to_json (m : message) (g : generators) : outcome json unit :=
  bind (calc_content_type (msg_contents m) (metadata_to_headers (msg_metadata m))) (fun ct =>
  bind (rules_written (msg_rules m)) (fun rules =>
    Ok (JObj (obj_of_list (body_field (S_ "contents") (with_content_type_if_not_set (msg_contents m) ct) ++
      map_written (S_ "metadata") (msg_metadata m) ++ rules ++ generators_written g))))).
(** v4/message_parts.rs:39-58 [MessageContents::from_json], without the check for an object, and the same lines of
    v4/async_message.rs:104-136. *)
Definition contents_from_json (j : json) : outcome (message * generators) unit :=
  let metadata := match json_get (S_ "metadata") j with Some (JObj m) => m | _ => [] end in
  bind (body_from_json j (S_ "contents") (metadata_to_headers metadata)) (fun b =>
  bind (rules_read j) (fun rules =>
  bind (generators_read j) (fun g =>
    Ok (mkMsg b metadata rules, g)))).
Definition message_from_json (j : json) : outcome (message * generators) unit :=
  match j with JObj _ => contents_from_json j | _ => Err tt end.

(** * Provider states *)
(** provider_states.rs:87-99 [to_json]. *)
Definition state_to_json (s : pstate) : json :=
  JObj (obj_of_list ((S_ "name", JStr (st_name s)) :: map_written (S_ "params") (st_params s))).
(** 36-62 [from_json_v3]. *)
Definition state_from_json (j : json) : pstate :=
  mkState (match json_get (S_ "name") j with Some v => text_or_shown v | None => S_ "unknown provider states" end)
    (match json_get (S_ "params") j with Some (JObj m) => m | _ => [] end).
(** 64-84 [from_json]. *)
Definition states_from_json (j : json) : list pstate :=
  match json_get (S_ "providerStates") j with
  | Some (JArr l) => map state_from_json l
  | Some _ => []
  | None =>
      match Http.or_else (json_get (S_ "providerState") j) (json_get (S_ "provider_state") j) with
      | Some (JStr []) | Some JNull | None => []
      | Some v => [mkState (text_or_shown v) []]
      end
  end.

(** * Interactions *)
(** The payload of an interaction (Merge.v) together with the generators of its parts. *)
Inductive file_payload :=
| FHttp (q : request * generators) (p : response * generators)
| FAsync (m : message * generators)
| FSync (q : message * generators) (p : list (message * generators)).
Record file_interaction := mkFI { f_id : option str; f_key : option str; f_desc : str; f_states : list pstate;
  f_payload : file_payload; f_extra : extra }.

(** json_utils.rs:220-230 [is_empty]. *)
Definition json_is_empty (j : json) : bool :=
  match j with JNull | JStr [] | JArr [] | JObj [] => true | _ => false end.
(** v4/interaction.rs:47-57 [is_empty] and [to_json] of the markup. *)
Definition markup_written (m : str * str) : list (str * json) :=
  match fst m with
  | [] => []
  | _ => [(S_ "interactionMarkup", JObj [(S_ "markup", JStr (fst m)); (S_ "markupType", JStr (snd m))])]
  end.
(** 30-43 [from_json]. *)
Definition markup_from_json (j : json) : str * str :=
  let field k := match json_get k j with Some v => json_to_string w v | None => [] end in
  (field (S_ "markup"), field (S_ "markupType")).
(** What every kind of interaction writes: v4/synch_http.rs:142-177, v4/async_message.rs:164-212, v4/sync_message.rs:160-193. *)
Definition extra_written (i : file_interaction) : list (str * json) :=
  let e := f_extra i in
  [(S_ "description", JStr (f_desc i)); (S_ "pending", JBool (x_pending e))] ++
  optional (S_ "key") JStr (f_key i) ++
  (match f_states i with [] => [] | l => [(S_ "providerStates", JArr (map state_to_json l))] end) ++
  map_written (S_ "comments") (filter (fun kv => negb (json_is_empty (snd kv))) (x_comments e)) ++
  (match x_plugin e with [] => [] | l => [(S_ "pluginConfiguration", JObj (obj_of_list (map (fun kv => (fst kv, JObj (obj_of_list (snd kv)))) l)))] end) ++
  markup_written (x_markup e) ++
  optional (S_ "transport") JStr (x_transport e).
Definition interaction_to_json (i : file_interaction) : outcome json unit :=
  bind (match f_payload i with
        | FHttp q p =>
            bind (request_to_json (fst q) (snd q)) (fun q =>
            bind (response_to_json (fst p) (snd p)) (fun p =>
              Ok [(S_ "type", JStr (S_ "Synchronous/HTTP")); (S_ "request", q); (S_ "response", p)]))
        | FAsync m =>
            bind (rules_written (msg_rules (fst m))) (fun rules =>
              Ok ([(S_ "type", JStr (S_ "Asynchronous/Messages"))] ++ body_field (S_ "contents") (msg_contents (fst m)) ++
                  map_written (S_ "metadata") (msg_metadata (fst m)) ++ rules ++ generators_written (snd m)))
        | FSync q p =>
            bind (message_to_json (fst q) (snd q)) (fun q =>
            bind (collect (map (fun m => message_to_json (fst m) (snd m)) p)) (fun p =>
              Ok [(S_ "type", JStr (S_ "Synchronous/Messages")); (S_ "request", q); (S_ "response", JArr p)]))
        end) (fun fields => Ok (JObj (obj_of_list (extra_written i ++ fields)))).

(** v4/interaction.rs:217-241 [parse_plugin_config]. *)
Definition plugin_config_from_json (j : json) : list (str * list (str * json)) :=
  match json_get (S_ "pluginConfiguration") j with
  | Some (JObj m) => map (fun kv => (fst kv, match snd kv with JObj c => c | _ => [] end)) m
  | _ => []
  end.
(** v4/synch_http.rs:77-133, v4/async_message.rs:86-159, v4/sync_message.rs:81-146: the common part. *)
Definition extra_from_json (j : json) : extra :=
  mkExtra (match json_get (S_ "comments") j with Some (JObj m) => m | _ => [] end)
    (match json_get (S_ "pending") j with Some (JBool b) => b | _ => false end)
    (plugin_config_from_json j)
    (match json_get (S_ "interactionMarkup") j with Some v => markup_from_json v | None => ([], []) end)
    (match json_get (S_ "transport") j with Some v => Some (text_or_shown v) | None => None end).
Definition string_at (k : str) (j : json) : option str :=
  match json_get k j with Some v => Some (json_to_string w v) | None => None end.
Definition common_from_json (index : nat) (j : json) (p : file_payload) : file_interaction :=
  mkFI (string_at (S_ "_id") j) (string_at (S_ "key") j)
    (match json_get (S_ "description") j with Some v => text_or_shown v | None => S_ "Interaction " ++ show_N (N.of_nat index) end)
    (states_from_json j) p (extra_from_json j).
Definition or_null (o : option json) : json := match o with Some j => j | None => JNull end.
(** v4/interaction.rs:195-215 [interaction_from_json] and the three [from_json]. A value with a type is an object. *)
Definition interaction_from_json (index : nat) (j : json) : outcome file_interaction unit :=
  match json_get (S_ "type") j with
  | None => Err tt
  | Some t =>
      let t := json_to_string w t in
      if str_eqb t (S_ "Synchronous/HTTP") then
        bind (request_from_json (or_null (json_get (S_ "request") j))) (fun q =>
        bind (response_from_json (or_null (json_get (S_ "response") j))) (fun p =>
          Ok (common_from_json index j (FHttp q p))))
      else if str_eqb t (S_ "Asynchronous/Messages") then
        bind (contents_from_json j) (fun m => Ok (common_from_json index j (FAsync m)))
      else if str_eqb t (S_ "Synchronous/Messages") then
        match json_get (S_ "request") j, json_get (S_ "response") j with
        | Some q, Some (JArr l) =>
            bind (collect (map message_from_json l)) (fun p =>
            bind (message_from_json q) (fun q =>
              Ok (common_from_json index j (FSync q p))))
        | _, _ => Err tt
        end
      else Err tt
  end.
Fixpoint number_from {A} (n : nat) (l : list A) : list (nat * A) :=
  match l with [] => [] | a :: l' => (n, a) :: number_from (S n) l' end.
(** v4/interaction.rs:181-192 [interactions_from_json]: the first error ends it. *)
Definition interactions_from_json (j : json) : outcome (list file_interaction) unit :=
  match json_get (S_ "interactions") j with
  | Some (JArr l) => collect (map (fun nj => interaction_from_json (fst nj) (snd nj)) (number_from 0 l))
  | _ => Ok []
  end.

(** * Pacts *)
Record v4_file := mkVF { vf_who : participants; vf_ints : list file_interaction; vf_meta : list (str * json); vf_plugins : list plugin }.
(** plugins.rs:11-21: the derived [Serialize] and [Deserialize] (a missing configuration is an empty one; serde ignores
    other fields; the form of a struct as an array, which serde also reads, is left out). *)
Definition plugin_to_json (p : plugin) : json :=
  JObj (obj_of_list [(S_ "name", JStr (pl_name p)); (S_ "version", JStr (pl_version p)); (S_ "configuration", JObj (obj_of_list (pl_config p)))]).
Definition plugin_from_json (j : json) : option plugin :=
  match json_get (S_ "name") j, json_get (S_ "version") j with
  | Some (JStr n), Some (JStr v) =>
      match json_get (S_ "configuration") j with
      | Some (JObj c) => Some (mkPlugin n v c)
      | None => Some (mkPlugin n v [])
      | Some _ => None
      end
  | _, _ => None
  end.
(** v4/pact.rs:45-76 [metadata_to_json]; [version] is PACT_RUST_VERSION. *)
Definition metadata_key (k : str) : str :=
  if str_eqb k (S_ "pact-specification") then S_ "pactSpecification"
  else if str_eqb k (S_ "pact-rust") then S_ "pactRust" else k.
Definition metadata_to_json (version : str) (p : v4_file) : json :=
  let md := obj_of_list (map (fun kv => (metadata_key (fst kv), snd kv)) (vf_meta p)) in
  let md := obj_insert (S_ "pactSpecification") (JObj [(S_ "version", JStr (S_ "4.0"))]) md in
  let md := match obj_get (S_ "pactRust") md with
            | Some (JObj m) => obj_insert (S_ "pactRust") (JObj (obj_insert (S_ "models") (JStr version) m)) md
            | Some _ => md
            | None => obj_insert (S_ "pactRust") (JObj [(S_ "models", JStr version)]) md
            end in
  JObj (match vf_plugins p with [] => md | l => obj_insert (S_ "plugins") (JArr (map plugin_to_json l)) md end).
(** v4/pact.rs:193-195: a stable sort by description. *)
Fixpoint insert_by_description (i : file_interaction) (l : list file_interaction) : list file_interaction :=
  match l with
  | [] => [i]
  | j :: l' => match str_compare (f_desc i) (f_desc j) with Gt => j :: insert_by_description i l' | _ => i :: l end
  end.
Definition sort_interactions (l : list file_interaction) : list file_interaction := fold_right insert_by_description [] l.
Definition who_to_json (name : str) : json := JObj [(S_ "name", JStr name)].
(** v4/pact.rs:188-199 [to_json] for V4. *)
Definition pact_to_json (version : str) (p : v4_file) : outcome json unit :=
  bind (collect (map interaction_to_json (sort_interactions (vf_ints p)))) (fun l =>
    Ok (JObj (obj_of_list [(S_ "consumer", who_to_json (consumer (vf_who p))); (S_ "provider", who_to_json (provider (vf_who p)));
                           (S_ "interactions", JArr l); (S_ "metadata", metadata_to_json version p)]))).

(** lib.rs:190-201, 260-271 [Consumer::from_json], [Provider::from_json]. *)
Definition who_from_json (default : str) (j : option json) : str :=
  match j with
  | Some j => match json_get (S_ "name") j with Some v => text_or_shown v | None => default end
  | None => default
  end.
(** v4/pact.rs:456-463 [meta_data_from_json], 103-127 [extract_plugin_data]. *)
Definition metadata_from_json (j : json) : list (str * json) * list plugin :=
  match json_get (S_ "metadata") j with
  | Some (JObj md) =>
      (filter (fun kv => negb (str_eqb (fst kv) (S_ "plugins"))) md,
       match obj_get (S_ "plugins") md with
       | Some (JArr l) => flat_map (fun p => match plugin_from_json p with Some d => [d] | None => [] end) l
       | _ => []
       end)
  | _ => ([], [])
  end.
(** v4/pact.rs:144-167 [pact_from_json], 431-454 [from_json]. *)
Definition pact_from_json (j : json) : outcome v4_file unit :=
  bind (interactions_from_json j) (fun l =>
    let md := metadata_from_json j in
    Ok (mkVF (mkWho (who_from_json (S_ "consumer") (json_get (S_ "consumer") j)) (who_from_json (S_ "provider") (json_get (S_ "provider") j)))
          l (fst md) (snd md))).
End File.
