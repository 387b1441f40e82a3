(** Model of V1 to V3 pact files, of the choice of the file's format when one is loaded, and of writing a pact in the
    format of another version.
    rust/pact_models/src/sync_pact.rs, sync_interaction.rs, request.rs, response.rs, message.rs, message_pact.rs,
    json_utils.rs [body_from_json], pact.rs [load_pact_from_json], v4/pact.rs (conversions).

    As in PactFile.v the text of a file is left to serde_json, a hash map is the list of its entries, and errors are not
    told apart. The crate lenient_semver is an argument. *)
From Coq Require Import Ascii String List Arith NArith ZArith Lia Bool.
From Verif Require Import Base PathExp Json Text MatchingRules Matchers JsonCompare Headers Query QueryString ContentType Http Merge Expr Generators Base64 PactFile.
Import ListNotations.
Open Scope N_scope.

(** lib.rs:83-96 [PactSpecification]; 106-115 [version_str]. *)
Inductive spec_version := SUnknown | SV1 | SV1_1 | SV2 | SV3 | SV4.
Definition version_str (v : spec_version) : str :=
  match v with
  | SV1 => S_ "1.0.0" | SV1_1 => S_ "1.1.0" | SV2 => S_ "2.0.0" | SV3 => S_ "3.0.0" | SV4 => S_ "4.0"
  | SUnknown => S_ "unknown"
  end.
Definition is_v3 (v : spec_version) : bool := match v with SV3 => true | _ => false end.
(** The forms V3 and V4 have in common. *)
Definition newer (v : spec_version) : bool := match v with SV3 | SV4 => true | _ => false end.

Section Old.
Variable w : world.
Variable x : externals.

(** * Bodies *)
(** request.rs:195-212, response.rs:75-92: the body, of the content type [ct]. *)
Definition text_or_base64 (bytes : list N) : json :=
  match from_utf8 bytes with Some s => JStr s | None => JStr (b64_encode bytes) end.
Definition json_or_base64 (bytes : list N) : json :=
  match json_of_bytes x bytes with Some j => j | None => JStr (b64_encode bytes) end.
Definition old_body_written (name : str) (ct : content_type) (b : body) : list (str * json) :=
  match b with
  | BPresent bytes _ _ => [(name, if is_json ct then json_or_base64 bytes else text_or_base64 bytes)]
  | BEmpty => [(name, JStr [])]
  | BMissing => []
  | BNull => [(name, JNull)]
  end.
(** message.rs:257-282: for a message a binary type is always encoded. *)
Definition message_body_written (name : str) (ct : content_type) (b : body) : list (str * json) :=
  match b with
  | BPresent bytes _ _ =>
      [(name, if is_json ct then json_or_base64 bytes
              else if is_binary ct then JStr (b64_encode bytes) else text_or_base64 bytes)]
  | b => old_body_written name ct b
  end.
(** json_utils.rs:151-162: the first value of the content type header; [kv.1[0]] panics without one. *)
Definition declared_type (headers : option hmap) : outcome (option content_type) unit :=
  match headers with
  | Some h => match find_header w h (S_ "content-type") with
              | Some (v :: _) => Ok (parse_mime x v)
              | Some [] => Panic
              | None => Ok None
              end
  | None => Ok None
  end.
(** json_utils.rs:142-148 [JsonParsable]: the text of a JSON string or object. *)
Definition json_parsable (s : str) : bool :=
  match json_of_bytes x (utf8 s) with Some (JStr _) | Some (JObj _) => true | _ => false end.
(** json_utils.rs:151-195 [body_from_json]. *)
Definition old_body_from_json (j : json) (attr : str) (headers : option hmap) : outcome body unit :=
  bind (declared_type headers) (fun ct =>
    match json_get attr j with
    | Some (JStr []) => Ok BEmpty
    | Some (JStr s) =>
        let ct := match ct with Some c => c | None => detect_text x s end in
        if is_json ct then
          Ok (BPresent (if json_parsable s then utf8 s else utf8 ([34] ++ s ++ [34])) (Some ct) None)
        else if is_text ct then Ok (BPresent (utf8 s) (Some ct) None)
        else Ok (BPresent (match b64_decode s with Some bytes => bytes | None => utf8 s end) None None)
    | Some JNull => Ok BNull
    | Some v => Ok (BPresent (utf8 (json_show w v)) None None)
    | None => Ok BMissing
    end).

(** * Requests and responses *)
(** matchingrules/mod.rs:1538-1543 [matchers_to_json]: a V2 file has the first rule of every list only. *)
Definition first_unresolved (rl : rulelist) : bool :=
  match rl_rules rl with r :: _ => has_unresolved r | [] => false end.
Definition old_rules_written (v : spec_version) (m : matching_rules) : outcome (list (str * json)) unit :=
  if newer v then rules_written m
  else if mr_is_empty m then Ok []
  else if existsb (fun nc => existsb (fun pr => first_unresolved (snd pr)) (cat_rules (snd nc))) m then Panic
  else Ok [(S_ "matchingRules", mr_to_v2_json m)].
(** generators/mod.rs:718-723 [generators_to_json]. *)
Definition old_generators_written (v : spec_version) (g : generators) : list (str * json) :=
  if newer v then generators_written g else if gens_is_empty g then [] else [(S_ "generators", JNull)].
(** matchingrules/mod.rs:1512-1519: the rules, or those under a deprecated name. *)
Definition old_rules_read (deprecated : option str) (j : json) : outcome matching_rules unit :=
  lift (matchers_from_json w (Http.or_else (json_get (S_ "matchingRules") j)
    (match deprecated with Some name => json_get name j | None => None end))).
(** query_strings.rs:179-193 [query_to_json], 138-147 [query_from_json]. *)
Definition old_query_written (v : spec_version) (q : option query_map) : outcome (list (str * json)) unit :=
  match q with
  | None => Ok []
  | Some m => if newer v then Ok [(S_ "query", query_to_json m)]
              else bind (build_query_string m) (fun s => Ok [(S_ "query", JStr s)])
  end.
Definition query_from_json (j : json) : option query_map :=
  match j with JStr s => parse_query_string s | _ => None end.

(** request.rs:179-222 [Request::to_json]. *)
Definition old_request_to_json (v : spec_version) (r : request) (g : generators) : outcome json unit :=
  bind (old_query_written v (req_query r)) (fun query =>
  bind (old_rules_written v (req_rules r)) (fun rules =>
    Ok (JObj (obj_of_list (
      [(S_ "method", JStr (to_upper w (req_method r))); (S_ "path", JStr (req_path r))] ++
      query ++ optional (S_ "headers") headers_to_json (req_headers r) ++
      old_body_written (S_ "body") (part_content_type w x (req_part r)) (req_body r) ++ rules ++ old_generators_written v g))))).
(** request.rs:143-173 [Request::from_json]. *)
Definition old_request_from_json (v : spec_version) (j : json) : outcome (request * generators) unit :=
  let headers := headers_from_json w j in
  bind (old_body_from_json j (S_ "body") headers) (fun b =>
  bind (old_rules_read (Some (S_ "requestMatchingRules")) j) (fun rules =>
  bind (generators_read w j) (fun g =>
    Ok (mkReq (match json_get (S_ "method") j with Some m => to_upper w (text_or_shown w m) | None => S_ "GET" end)
              (match json_get (S_ "path") j with Some p => text_or_shown w p | None => S_ "/" end)
              (match json_get (S_ "query") j with
               | Some q => if is_v3 v then v3_query_from_json w q else query_from_json q
               | None => None
               end)
              headers b rules, g)))).
(** request.rs:127-139, response.rs:210-220 [default]. *)
Definition request_default : request * generators := (mkReq (S_ "GET") (S_ "/") None None BMissing [], []).
Definition response_default : response * generators := (mkResp 200 None BMissing [], []).

(** response.rs:63-103 [Response::to_json]. *)
Definition old_response_to_json (v : spec_version) (r : response) (g : generators) : outcome json unit :=
  bind (old_rules_written v (resp_rules r)) (fun rules =>
    Ok (JObj (obj_of_list (
      [(S_ "status", JNum (PosInt (resp_status r)))] ++ optional (S_ "headers") headers_to_json (resp_headers r) ++
      old_body_written (S_ "body") (part_content_type w x (resp_part r)) (resp_body r) ++ rules ++ old_generators_written v g)))).
(** response.rs:39-53 [Response::from_json]; [as_u64().unwrap() as u16]. *)
Definition old_response_from_json (j : json) : outcome (response * generators) unit :=
  bind (match json_get (S_ "status") j with
        | Some (JNum (PosInt n)) => Ok (n mod 65536)
        | Some _ => Panic
        | None => Ok 200
        end) (fun status =>
  let headers := headers_from_json w j in
  bind (old_body_from_json j (S_ "body") headers) (fun b =>
  bind (old_rules_read (Some (S_ "responseMatchingRules")) j) (fun rules =>
  bind (generators_read w j) (fun g =>
    Ok (mkResp status headers b rules, g))))).

(** * Interactions *)
(** sync_interaction.rs:24-37 [RequestResponseInteraction]; message.rs:33-55 [Message]. *)
Record http_interaction := mkHI { h_id : option str; h_desc : str; h_states : list pstate;
  h_request : request * generators; h_response : response * generators }.
Record old_message := mkOM { om_id : option str; om_desc : str; om_states : list pstate; om_body : message * generators }.

(** sync_interaction.rs:192-211 [to_json]: before V3 only the name of the first state. *)
Definition states_written (v : spec_version) (l : list pstate) : list (str * json) :=
  match l with
  | [] => []
  | s :: _ => if is_v3 v then [(S_ "providerStates", JArr (map state_to_json l))]
              else [(S_ "providerState", JStr (st_name s))]
  end.
Definition http_to_json (v : spec_version) (i : http_interaction) : outcome json unit :=
  bind (old_request_to_json v (fst (h_request i)) (snd (h_request i))) (fun q =>
  bind (old_response_to_json v (fst (h_response i)) (snd (h_response i))) (fun p =>
    Ok (JObj (obj_of_list ([(S_ "description", JStr (h_desc i)); (S_ "request", q); (S_ "response", p)] ++
      states_written v (h_states i)))))).
(** sync_interaction.rs:163-189 [from_json]. *)
Definition described (what : str) (index : nat) (j : json) : str :=
  match json_get (S_ "description") j with Some d => text_or_shown w d | None => what ++ show_N (N.of_nat index) end.
Definition http_from_json (v : spec_version) (index : nat) (j : json) : outcome http_interaction unit :=
  bind (match json_get (S_ "request") j with Some q => old_request_from_json v q | None => Ok request_default end) (fun q =>
  bind (match json_get (S_ "response") j with Some p => old_response_from_json p | None => Ok response_default end) (fun p =>
    Ok (mkHI (string_at w (S_ "_id") j) (described (S_ "Interaction ") index j) (states_from_json w j) q p))).

(** message.rs:290-303 [message_content_type] and 202-209: the entry of the metadata that declares the type. *)
Definition type_key (k : str) : bool :=
  let k := map ascii_low k in str_eqb k (S_ "contenttype") || str_eqb k (S_ "content-type").
Definition type_entry (md : list (str * json)) : option json := option_map snd (find (fun kv => type_key (fst kv)) md).
Definition message_content_type (m : message) : content_type :=
  match (match body_content_type (msg_contents m) with
         | Some ct => Some ct
         | None => match type_entry (msg_metadata m) with
                   | Some v => parse_mime x (json_to_string w v)
                   | None => detect_content_type x (msg_contents m)
                   end
         end) with
  | Some ct => ct
  | None => ct_default
  end.
(** message.rs:239-286 [Message::to_json]. *)
Definition old_message_to_json (v : spec_version) (m : old_message) : outcome json unit :=
  let b := fst (om_body m) in
  bind (old_rules_written v (msg_rules b)) (fun rules =>
    Ok (JObj (obj_of_list ([(S_ "description", JStr (om_desc m)); (S_ "metadata", JObj (obj_of_list (msg_metadata b)))] ++
      rules ++ old_generators_written v (snd (om_body m)) ++
      message_body_written (S_ "contents") (message_content_type b) (msg_contents b) ++
      (match om_states m with [] => [] | l => [(S_ "providerStates", JArr (map state_to_json l))] end))))).
(** bodies.rs:183-187 [set_content_type]. *)
Definition set_content_type (b : body) (ct : content_type) : body :=
  match b with BPresent bytes _ h => BPresent bytes (Some ct) h | b => b end.
(** message.rs:185-234 [Message::from_json]: the generators are not read. *)
Definition old_message_from_json (v : spec_version) (index : nat) (j : json) : outcome old_message unit :=
  if is_v3 v then
    let metadata := match Http.or_else (json_get (S_ "metaData") j) (json_get (S_ "metadata") j) with
                    | Some (JObj m) => m
                    | _ => []
                    end in
    let ct := match type_entry metadata with Some t => parse_mime x (json_to_string w t) | None => None end in
    bind (match ct with
          | Some ct => bind (old_body_from_json j (S_ "contents") (Some [(S_ "content-type", [ct_show ct])]))
                         (fun b => Ok (set_content_type b ct))
          | None => old_body_from_json j (S_ "contents") None
          end) (fun b =>
    bind (old_rules_read None j) (fun rules =>
      Ok (mkOM (string_at w (S_ "_id") j) (described (S_ "Message ") index j) (states_from_json w j) (mkMsg b metadata rules, []))))
  else Err tt.

(** * Pacts *)
(** sync_pact.rs:27-38 [RequestResponsePact], message_pact.rs:36-47 [MessagePact]. *)
Definition old_metadata := list (str * list (str * str)).
Record http_pact := mkHP { hp_who : participants; hp_ints : list http_interaction; hp_meta : old_metadata; hp_version : spec_version }.
Record message_file := mkMF { mf_who : participants; mf_msgs : list old_message; mf_meta : old_metadata; mf_version : spec_version }.
Inductive any_pact := AHttp (p : http_pact) | AMsg (p : message_file) | AV4 (p : v4_file).

(** sync_pact.rs:195-219, message_pact.rs:211-235 [metadata_to_json]; [lib] is PACT_RUST_VERSION. *)
Definition texts_to_json (m : list (str * str)) : json := JObj (obj_of_list (map (fun kv => (fst kv, JStr (snd kv))) m)).
Definition old_metadata_to_json (lib : str) (v : spec_version) (md : old_metadata) : json :=
  let o := obj_of_list (map (fun kv => (metadata_key (fst kv), texts_to_json (snd kv))) md) in
  let o := obj_insert (S_ "pactSpecification") (JObj [(S_ "version", JStr (version_str v))]) o in
  JObj (match obj_get (S_ "pactRust") o with
        | Some (JObj m) => obj_insert (S_ "pactRust") (JObj (obj_insert (S_ "models") (JStr lib) m)) o
        | Some _ => o
        | None => obj_insert (S_ "pactRust") (JObj [(S_ "models", JStr lib)]) o
        end).
(** pact.rs:258-283 [parse_meta_data]. *)
Definition parse_meta_data (j : json) : old_metadata :=
  match json_get (S_ "metadata") j with
  | Some (JObj o) =>
      obj_of_list (map (fun kv => (metadata_key (fst kv), match snd kv with
                                                           | JObj m => map (fun kv => (fst kv, text_or_shown w (snd kv))) m
                                                           | _ => []
                                                           end)) o)
  | _ => []
  end.
(** pact.rs:334-377 [determine_spec_version]; [semver] gives the major and minor numbers of a version. *)
Section Semver.
Variable semver : str -> option (N * N).
Definition determine_spec_version (md : old_metadata) : spec_version :=
  match (if obj_has (S_ "pact-specification") md then obj_get (S_ "pact-specification") md else obj_get (S_ "pactSpecification") md) with
  | Some spec =>
      match obj_get (S_ "version") spec with
      | Some text =>
          match semver text with
          | Some (major, minor) =>
              if major =? 1 then (if minor =? 1 then SV1_1 else SV1)
              else if major =? 2 then SV2
              else if major =? 3 then SV3
              else if major =? 4 then SV4
              else SUnknown
          | None => SUnknown
          end
      | None => SV3
      end
  | None => SV3
  end.

(** ** Conversions *)
(** sync_interaction.rs:112-122 [as_v4_http], message.rs:131-147 [as_v4_async_message]; rename("body", "content") changes nothing ([rename_body]). *)
Definition upgrade_http (i : http_interaction) : file_interaction :=
  mkFI (h_id i) None (h_desc i) (h_states i) (FHttp (h_request i) (h_response i)) extra_default.
Definition upgrade_message (m : old_message) : file_interaction :=
  mkFI (om_id m) None (om_desc m) (om_states m)
    (FAsync (with_rules (fst (om_body m)) (rename_body (msg_rules (fst (om_body m)))), snd (om_body m))) extra_default.
(** sync_pact.rs:86-100, message_pact.rs:93-107 [as_v4_pact]. *)
Definition upgrade_metadata (md : old_metadata) : list (str * json) := map (fun kv => (fst kv, texts_to_json (snd kv))) md.
Definition http_as_v4 (p : http_pact) : v4_file := mkVF (hp_who p) (map upgrade_http (hp_ints p)) (upgrade_metadata (hp_meta p)) [].
Definition message_as_v4 (p : message_file) : v4_file := mkVF (mf_who p) (map upgrade_message (mf_msgs p)) (upgrade_metadata (mf_meta p)) [].
(** v4/synch_http.rs:255-263, v4/async_message.rs:297-314. *)
Definition downgrade_http (i : file_interaction) : list http_interaction :=
  match f_payload i with FHttp q p => [mkHI (f_id i) (f_desc i) (f_states i) q p] | _ => [] end.
Definition downgrade_message (i : file_interaction) : list old_message :=
  match f_payload i with
  | FAsync m => [mkOM (f_id i) (f_desc i) (f_states i)
                   (mkMsg (msg_contents (fst m)) (add_content_type (fst m)) (rename_body (msg_rules (fst m))), snd m)]
  | _ => []
  end.
(** v4/pact.rs:219-265: an entry that is not an object is dropped. *)
Definition downgrade_entry (kv : str * json) : list (str * list (str * str)) :=
  match snd kv with JObj m => [(fst kv, map (fun kv => (fst kv, json_to_string w (snd kv))) m)] | _ => [] end.
Definition v4_as_http (p : v4_file) : http_pact :=
  mkHP (vf_who p) (flat_map downgrade_http (vf_ints p))
    (flat_map (fun kv => if str_eqb (fst kv) (S_ "pactSpecification") then [(fst kv, [(S_ "version", version_str SV3)])]
                         else downgrade_entry kv) (vf_meta p)) SV3.
Definition v4_as_message (p : v4_file) : message_file :=
  mkMF (vf_who p) (flat_map downgrade_message (vf_ints p)) (flat_map downgrade_entry (vf_meta p)) SV3.

(** ** Writing *)
Definition file_with (lib : str) (v : spec_version) (who : participants) (what : str) (l : list json) (md : old_metadata) : json :=
  JObj (obj_of_list [(S_ "consumer", who_to_json (consumer who)); (S_ "provider", who_to_json (provider who));
                     (what, JArr l); (S_ "metadata", old_metadata_to_json lib v md)]).
(** sync_pact.rs:66-77 [to_json]. *)
Definition http_pact_to_json (lib : str) (v : spec_version) (p : http_pact) : outcome json unit :=
  match v with
  | SV4 => pact_to_json w x lib (http_as_v4 p)
  | _ => bind (collect (map (http_to_json v) (hp_ints p))) (fun l =>
           Ok (file_with lib v (hp_who p) (S_ "interactions") l (hp_meta p)))
  end.
(** message_pact.rs:71-84 [to_json]. *)
Definition message_pact_to_json (lib : str) (v : spec_version) (p : message_file) : outcome json unit :=
  match v with
  | SV3 => bind (collect (map (old_message_to_json v) (mf_msgs p))) (fun l =>
             Ok (file_with lib v (mf_who p) (S_ "messages") l (mf_meta p)))
  | SV4 => pact_to_json w x lib (message_as_v4 p)
  | _ => Err tt
  end.
(** v4/pact.rs:85-89 [has_mixed_interactions], 196-217 [to_json]. *)
Inductive kind := KHttp | KAsync | KSync.
Definition kind_of (i : file_interaction) : kind :=
  match f_payload i with FHttp _ _ => KHttp | FAsync _ => KAsync | FSync _ _ => KSync end.
Definition kind_eqb (a b : kind) : bool :=
  match a, b with KHttp, KHttp | KAsync, KAsync | KSync, KSync => true | _, _ => false end.
Definition mixed (l : list file_interaction) : bool :=
  match l with [] => false | i :: l' => negb (forallb (fun j => kind_eqb (kind_of i) (kind_of j)) l') end.
Definition has_kind (k : kind) (l : list file_interaction) : bool := existsb (fun i => kind_eqb k (kind_of i)) l.
Definition v4_pact_to_json (lib : str) (v : spec_version) (p : v4_file) : outcome json unit :=
  match v with
  | SV4 => pact_to_json w x lib p
  | _ =>
      if mixed (vf_ints p) then Err tt
      else if (match vf_ints p with [] => true | _ => false end) || has_kind KHttp (vf_ints p) then http_pact_to_json lib v (v4_as_http p)
      else if has_kind KAsync (vf_ints p) then message_pact_to_json lib v (v4_as_message p)
      else Err tt
  end.
Definition any_to_json (lib : str) (v : spec_version) (p : any_pact) : outcome json unit :=
  match p with
  | AHttp p => http_pact_to_json lib v p
  | AMsg p => message_pact_to_json lib v p
  | AV4 p => v4_pact_to_json lib v p
  end.

(** ** Reading *)
Definition who_read (j : json) : participants :=
  mkWho (who_from_json w (S_ "consumer") (json_get (S_ "consumer") j)) (who_from_json w (S_ "provider") (json_get (S_ "provider") j)).
(** sync_pact.rs:167-192 [from_json], interaction.rs:201-211 [parse_interactions]. *)
Definition http_pact_from_json (j : json) : outcome http_pact unit :=
  let md := parse_meta_data j in
  match determine_spec_version md with
  | SV4 => bind (pact_from_json w x j) (fun p => Ok (v4_as_http p))
  | v =>
      bind (match json_get (S_ "interactions") j with
            | Some (JArr l) => collect (map (fun nj => http_from_json v (fst nj) (snd nj)) (number_from 0 l))
            | _ => Ok []
            end) (fun l => Ok (mkHP (who_read j) l md v))
  end.
(** message_pact.rs:174-208 [from_json]. *)
Definition message_pact_from_json (j : json) : outcome message_file unit :=
  let md := parse_meta_data j in
  let v := determine_spec_version md in
  bind (match json_get (S_ "messages") j with
        | Some (JArr l) => collect (map (fun nj => old_message_from_json v (fst nj) (snd nj)) (number_from 0 l))
        | Some _ => Err tt
        | None => Ok []
        end) (fun l => Ok (mkMF (who_read j) l md v)).
(** pact.rs:171-191 [load_pact_from_json]. *)
Definition load_pact (j : json) : outcome any_pact unit :=
  match j with
  | JObj o =>
      match determine_spec_version (parse_meta_data j) with
      | SV4 => bind (pact_from_json w x j) (fun p => Ok (AV4 p))
      | _ => if obj_has (S_ "messages") o then bind (message_pact_from_json j) (fun p => Ok (AMsg p))
             else bind (http_pact_from_json j) (fun p => Ok (AHttp p))
      end
  | _ => Err tt
  end.
End Semver.
End Old.
