(** Model of rust/pact_verifier/src/pact_broker.rs: what is asked of a Pact Broker and what is published to it.

    The crate [url] is outside: its functions are arguments. So is the network: each request gets an
    answer that may be anything ([utils::with_retries] has been applied, VerifierClient.v models it).
    Of the texts of error messages only those of the broker's validation errors are kept. *)
From Coq Require Import Ascii String List Arith NArith ZArith Lia Bool.
From Verif Require Import Base PathExp Json Text MatchingRules Matchers JsonCompare Headers Query ContentType Http Merge QueryString VerifierClient Verifier.
Import ListNotations.
Open Scope N_scope.

(** * The payload with the results *)
(** pact_broker.rs:793-799 [enum TestResult]; the third part is [Err] of the result. *)
Inductive test_result :=
| TOk (ids : list (option str))
| TFailed (l : list (option str * option str * option mismatch_result)).
(** 803-808 [to_bool]. *)
Definition to_bool (r : test_result) : bool := match r with TOk _ => true | _ => false end.

(** metrics.rs:48-56 [VerificationMetrics], the three fields that are published. *)
Record metrics := mkMetrics { test_framework : str; app_name : str; app_version : str }.

Section Payload.
(** The texts of Mismatch values and of errors, and [VERIFIER_VERSION]. *)
Variable describe : request_mismatch -> str.
Variable message : error_kind -> str.
Variable verifier_version : str.

(** [json!({...})]: a [serde_json::Map] keeps its keys sorted. *)
Definition object (l : list (str * json)) : json := JObj (obj_of_list l).

(** 881-925: one mismatch. *)
Definition mismatch_json (m : request_mismatch) : json :=
  match m with
  | MMethod => object [(S_ "attribute", JStr (S_ "method")); (S_ "description", JStr (describe m))]
  | MPath _ => object [(S_ "attribute", JStr (S_ "path")); (S_ "description", JStr (describe m))]
  | MStatus _ => object [(S_ "attribute", JStr (S_ "status")); (S_ "description", JStr (describe m))]
  | MQuery q => object [(S_ "attribute", JStr (S_ "query")); (S_ "identifier", JStr (mm_path q)); (S_ "description", JStr (describe m))]
  | MHeader h => object [(S_ "attribute", JStr (S_ "header")); (S_ "identifier", JStr (mm_path h)); (S_ "description", JStr (describe m))]
  | MBodyType => object [(S_ "attribute", JStr (S_ "body")); (S_ "identifier", JStr (S_ "$")); (S_ "description", JStr (describe m))]
  | MBody b => object [(S_ "attribute", JStr (S_ "body")); (S_ "identifier", JStr (mm_path b)); (S_ "description", JStr (describe m))]
  | MMetadata k _ => object [(S_ "attribute", JStr (S_ "metadata")); (S_ "identifier", JStr k); (S_ "description", JStr (describe m))]
  end.

(** [Itertools::chunk_by] with the key [id.clone().unwrap_or_default()]: runs of neighbours with one key. *)
Definition entry := (option str * option str * option mismatch_result)%type.
Definition entry_key (e : entry) : str := or_nothing (fst (fst e)).
Fixpoint chunk_by (l : list entry) : list (str * list entry) :=
  match l with
  | [] => []
  | e :: l' =>
      match chunk_by l' with
      | (k, g) :: rest => if str_eqb (entry_key e) k then (k, e :: g) :: rest else (entry_key e, [e]) :: (k, g) :: rest
      | [] => [(entry_key e, [e])]
      end
  end.

(** 876-935: the fold over a chunk. *)
Definition chunk_step (acc : list json * list json * option str) (e : entry) : list json * list json * option str :=
  let '(mismatches, errors, desc) := acc in
  let '(_, d, r) := e in
  let '(mismatches, errors) :=
    match r with
    | Some (RMismatches ms _) => (mismatches ++ map mismatch_json ms, errors)
    | Some (RError k _) => (mismatches, errors ++ [object [(S_ "message", JStr (message k))]])
    | None => (mismatches, errors)
    end in
  (mismatches, errors, match desc with None => d | Some _ => desc end).
(** 937-955. *)
Definition chunk_json (c : str * list entry) : json :=
  let '(mismatches, errors, desc) := fold_left chunk_step (snd c) ([], [], None) in
  let m := obj_of_list [(S_ "interactionId", JStr (fst c));
                        (S_ "success", JBool (negb (nonempty mismatches) && negb (nonempty errors)))] in
  let m := if nonempty mismatches then obj_insert (S_ "mismatches") (JArr mismatches) m else m in
  let m := if nonempty errors then obj_insert (S_ "exceptions") (JArr errors) m else m in
  JObj (match desc with Some d => obj_insert (S_ "interactionDescription") (JStr d) m | None => m end).

(** 845-968 [build_payload]. *)
Definition build_payload (r : test_result) (version : str) (build_url : option str) (me : option metrics) : json :=
  let verified := obj_of_list [(S_ "implementation", JStr (S_ "Pact-Rust")); (S_ "version", JStr verifier_version)] in
  let verified :=
    match me with
    | Some d => obj_insert (S_ "clientLanguage")
                  (object [(S_ "testFramework", JStr (test_framework d)); (S_ "name", JStr (app_name d)); (S_ "version", JStr (app_version d))])
                  verified
    | None => verified
    end in
  let m := obj_of_list [(S_ "success", JBool (to_bool r)); (S_ "providerApplicationVersion", JStr version); (S_ "verifiedBy", JObj verified)] in
  let m := match build_url with Some u => obj_insert (S_ "buildUrl") (JStr u) m | None => m end in
  let values :=
    match r with
    | TFailed l => map chunk_json (chunk_by l)
    | TOk ids => flat_map (fun id => match id with
                                     | Some i => [object [(S_ "interactionId", JStr i); (S_ "success", JBool true)]]
                                     | None => []
                                     end) ids
    end in
  JObj (obj_insert (S_ "testResults") (JArr values) m).

(** lib.rs:1616-1628 in [publish_to_broker]: the result of a pact from those of its interactions. *)
Definition passed (r : interaction_result) : bool := match ir_result r with None => true | Some _ => false end.
Definition test_result_of (rs : list interaction_result) : test_result :=
  if forallb passed rs then TOk (map ir_id rs)
  else TFailed (map (fun r => (ir_id r, Some (ir_interaction r), ir_result r)) rs).
Definition results_payload (rs : list interaction_result) (version : str) (build_url : option str) (me : option metrics) : json :=
  build_payload (test_result_of rs) version build_url me.
End Payload.

(** * HAL links *)
(** 130-142 [struct Link], 180-189 its default. *)
Record link := mkLink { l_name : str; l_href : option str; l_templated : bool; l_title : option str }.
Definition default_link : link := mkLink (S_ "link") None false None.

Section Links.
Variable w : world.
(** Characters beyond ASCII that the pattern [\w] takes. *)
Variable uni_word : N -> bool.

(** 38-43 [as_string]. *)
Definition as_string (j : json) : str := match j with JStr s => s | _ => json_show w j end.
(** 28-36 [is_true]. *)
Definition is_true (m : list (str * json)) (k : str) : bool :=
  match obj_get k m with Some (JBool b) => b | _ => false end.
(** 65-70 [find_entry], the value. *)
Definition find_entry (m : list (str * json)) (k : str) : option json :=
  option_map snd (find (fun kv => str_eqb (to_lower w (fst kv)) (to_lower w k)) m).
(** 147-155 [Link::from_json]. *)
Definition link_from_json (name : str) (m : list (str * json)) : link :=
  mkLink name (option_map as_string (find_entry m (S_ "href"))) (is_true m (S_ "templated"))
         (option_map as_string (obj_get (S_ "title") m)).
(** 158-177 [Link::as_json]. *)
Definition link_as_json (l : link) : json :=
  match l_href l, l_title l with
  | Some h, Some t => object [(S_ "href", JStr h); (S_ "title", JStr t); (S_ "templated", JBool (l_templated l))]
  | Some h, None => object [(S_ "href", JStr h); (S_ "templated", JBool (l_templated l))]
  | None, Some t => object [(S_ "title", JStr t); (S_ "templated", JBool (l_templated l))]
  | None, None => object [(S_ "templated", JBool (l_templated l))]
  end.

(** 72-92 [enum PactBrokerError]; of the texts only those of validation errors. *)
Inductive broker_error := BLink | BContent | BIo | BNotFound | BUrl | BValidation (errors : list str).
Definition result (A : Type) := outcome A broker_error.

(** 240-257 [find_link]. *)
Definition find_link (info : option json) (name : str) : result link :=
  match info with
  | None => Err BLink
  | Some j =>
      match json_get (S_ "_links") j with
      | Some links => match json_get name links with
                      | Some (JObj m) => Ok (link_from_json name m)
                      | Some _ => Err BLink
                      | None => Err BLink
                      end
      | None => Err BLink
      end
  end.
(** 437-458 [iter_links]. *)
Definition link_of_value (name : str) (j : json) : link :=
  match j with
  | JObj m => link_from_json name m
  | JStr s => mkLink name (Some s) false None
  | _ => mkLink name (Some (json_show w j)) false None
  end.
Definition iter_links (info : option json) (name : str) : result (list link) :=
  match info with
  | None => Err BLink
  | Some j =>
      match json_get (S_ "_links") j with
      | Some links => match json_get name links with
                      | Some (JArr l) => Ok (map (link_of_value name) l)
                      | Some _ => Err BLink
                      | None => Err BLink
                      end
      | None => Err BLink
      end
  end.
(** 562-575 [links_from_json]. *)
Definition links_from_json (j : json) : list link :=
  match json_get (S_ "_links") j with
  | Some (JObj m) => map (fun kv => match snd kv with
                                    | JObj attr => link_from_json (fst kv) attr
                                    | _ => mkLink (fst kv) None false None
                                    end) m
  | _ => []
  end.
(** 510-517 [with_doc_context]: the document a client starts from. *)
Definition doc_context (links : list link) : json :=
  object [(S_ "_links", JObj (obj_of_list (map (fun l => (l_name l, link_as_json l)) links)))].

(** ** Templates *)
(** [\w]. *)
Definition word_char (c : N) : bool := ascii_alpha c || is_digit c || (c =? 95) || ((128 <=? c) && uni_word c).
Fixpoint take_while (p : N -> bool) (s : str) : str :=
  match s with c :: s' => if p c then c :: take_while p s' else [] | [] => [] end.
(** The pattern [\{(\w+)}] after its brace: the name and what follows. *)
Definition template_name (s : str) : option (str * str) :=
  let name := take_while word_char s in
  match drop_while word_char s with
  | c :: rest => if (c =? 125) && nonempty name then Some (name, rest) else None
  | [] => None
  end.
(** [urlencoding::encode]: letters, digits and [-_.~] stay, the other bytes become [%XX]. *)
Definition unreserved (c : N) : bool := ascii_alpha c || is_digit c || (c =? 45) || (c =? 46) || (c =? 95) || (c =? 126).
Definition upper_hex (d : N) : N := if d <? 10 then 48 + d else 55 + d.
Definition url_encode (s : str) : str :=
  flat_map (fun b => if unreserved b then [b] else [37; upper_hex (b / 16); upper_hex (b mod 16)]) (utf8 s).
(** 411-434 [parse_link_url]: [Regex::replace_all]; [fuel] bounds the length of the text. *)
Definition template_value (values : list (str * str)) (name : str) : str :=
  match obj_get name values with Some v => url_encode v | None => 123 :: name ++ [125] end.
Fixpoint expand (fuel : nat) (values : list (str * str)) (s : str) : str :=
  match fuel with
  | O => []
  | S f =>
      match s with
      | [] => []
      | c :: s' =>
          if c =? 123 then
            match template_name s' with
            | Some (name, rest) => template_value values name ++ expand f values rest
            | None => c :: expand f values s'
            end
          else c :: expand f values s'
      end
  end.
Definition parse_link_url (l : link) (values : list (str * str)) : result str :=
  match l_href l with
  | Some href => Ok (expand (length href) values href)
  | None => Err BLink
  end.

(** ** Validation errors: 520-544 [handle_validation_errors] *)
Definition comma_join (l : list str) : str := match l with [] => [] | a :: l' => a ++ flat_map (fun s => S_ ", " ++ s) l' end.
Definition field_errors (kv : str * json) : str :=
  match snd kv with
  | JStr s => fst kv ++ S_ ": " ++ s
  | JArr l => fst kv ++ S_ ": " ++ comma_join (map (json_to_string w) l)
  | v => fst kv ++ S_ ": " ++ json_show w v
  end.
Definition validation_errors (body : json) : list str :=
  match body with
  | JObj m => match obj_get (S_ "errors") m with
              | Some (JArr l) => map (json_to_string w) l
              | Some (JObj es) => map field_errors es
              | Some (JStr s) => [s]
              | Some v => [json_show w v]
              | None => [json_show w body]
              end
  | JStr s => [s]
  | _ => [json_show w body]
  end.
End Links.

(** * Requests to the broker *)
(** The crate [url]: [str::parse::<Url>], [Url::join], [Url::path], [Url::set_path]. *)
Record url_lib := mkUrlLib { url : Type; u_parse : str -> option url; u_join : url -> str -> option url;
  u_path : url -> str; u_set_path : url -> str -> url }.
(** http_utils.rs:23-29 [enum HttpAuth]. *)
Inductive http_auth := AUser (name : str) (password : option str) | AToken (token : str) | ANone.
Inductive broker_method := BGet | BPut | BPost.
(** A request: its URL, its credentials and, unless it is a GET, its JSON body. *)
Record broker_request (u : url_lib) := mkBR { br_method : broker_method; br_url : url u; br_auth : option http_auth; br_body : option json }.
Arguments mkBR {u}. Arguments br_method {u}. Arguments br_url {u}. Arguments br_auth {u}. Arguments br_body {u}.
(** The content type is [None] when it is missing or no visible ASCII text. *)
Record broker_response := mkBResp { bs_status : N; bs_type : option str; bs_body : list N }.

Section Client.
Variable w : world.
Variable x : externals.
Variable uni_word : N -> bool.
Variable u : url_lib.
Definition request_log := list (broker_request u).
(** What the broker answers, given what it was asked before; [None]: no answer. *)
Variable broker : request_log -> broker_request u -> option broker_response.

(** A computation that asks the broker. *)
Definition asks (A : Type) := request_log -> result A * request_log.
Definition abind {A B} (m : asks A) (f : A -> asks B) : asks B := fun h =>
  match m h with
  | (Ok a, h') => f a h'
  | (Err e, h') => (Err e, h')
  | (Panic, h') => (Panic, h')
  end.
Definition aret {A} (r : result A) : asks A := fun h => (r, h).

(** 193-199 [struct HALClient]. *)
Record client := mkClient { c_url : str; c_info : option json; c_auth : option http_auth }.
(** 203-205 [with_url]. *)
Definition with_url (broker_url : str) (auth : option http_auth) : client := mkClient broker_url None auth.
(** 207-215 [update_path_info]. *)
Definition update_path_info (c : client) (j : json) : client := mkClient (c_url c) (Some j) (c_auth c).

(** 45-63 [content_type], [json_content_type]. *)
Definition json_type (r : broker_response) : bool :=
  match parse_mime x (match bs_type r with Some t => t | None => S_ "text/plain" end) with
  | Some ct => str_eqb (main_type ct) (S_ "application") &&
               ((str_eqb (sub_type ct) (S_ "json") && match suffix ct with None => true | Some _ => false end) ||
                (str_eqb (sub_type ct) (S_ "hal") && match suffix ct with Some s => str_eqb s (S_ "json") | None => false end))
  | None => false
  end.
(** 348-409 [parse_broker_response]. *)
Definition parse_response (r : broker_response) : result json :=
  if (200 <=? bs_status r) && (bs_status r <? 300) then
    if json_type r then match json_of_bytes x (bs_body r) with Some j => Ok j | None => Err BContent end
    else Err BContent
  else if bs_status r =? 404 then Err BNotFound
  else if bs_status r =? 400 then
    if json_type r then match json_of_bytes x (bs_body r) with
                        | Some j => Err (BValidation (validation_errors w j))
                        | None => Err BContent
                        end
    else Err BIo
  else Err BIo.
(** 299-306, 483-493: the credentials a request carries. *)
Definition credentials (a : option http_auth) : option http_auth :=
  match a with
  | Some (AUser n p) => Some (AUser n p)
  | Some (AToken t) => Some (AToken t)
  | Some ANone => None
  | None => None
  end.
Definition send (c : client) (m : broker_method) (to : url u) (body : option json) : asks json := fun h =>
  let r := mkBR m to (credentials (c_auth c)) body in
  (match broker h r with Some a => parse_response a | None => Err BIo end, h ++ [r]).

(** [?] on the functions of [url]. *)
Definition url_ok {A} (o : option A) : result A := match o with Some a => Ok a | None => Err BUrl end.
(** 321-346 [resolve_path]. *)
Definition resolve_path (broker_url path : str) : result (url u) :=
  bind (url_ok (u_parse u broker_url)) (fun base =>
    let context := u_path u base in
    match path with
    | [] => Ok base
    | _ =>
        if nonempty context && negb (str_eqb context (S_ "/")) then
          if starts_with context path then url_ok (u_join u (u_set_path u base (S_ "/")) path)
          else if starts_with (S_ "/") path then Ok (u_set_path u base path)
          else url_ok (u_join u (u_set_path u base (context ++ S_ "/")) path)
        else url_ok (u_join u base path)
    end).
(** 292-319 [fetch]. *)
Definition fetch (c : client) (path : str) : asks json :=
  abind (aret (resolve_path (c_url c) path)) (fun to => send c BGet to None).
(** 270-290 [fetch_url]. *)
Definition fetch_url (c : client) (l : link) (values : list (str * str)) : asks json :=
  abind (aret (if l_templated l then parse_link_url uni_word l values
               else match l_href l with Some h => Ok h | None => Err BLink end)) (fun href =>
  abind (aret (url_ok (u_parse u (c_url c)))) (fun base =>
  abind (aret (url_ok (u_join u base href))) (fun joined =>
    fetch c (u_path u joined)))).
(** 259-267 [fetch_link], 220-238 [navigate]. *)
Definition fetch_link (c : client) (name : str) (values : list (str * str)) : asks json :=
  abind (aret (find_link w (c_info c) name)) (fun l => fetch_url c l values).
Definition navigate (c : client) (name : str) (values : list (str * str)) : asks client :=
  abind (match c_info c with
         | None => abind (fetch c []) (fun j => aret (Ok (update_path_info c j)))
         | Some _ => aret (Ok c)
         end) (fun c =>
  abind (fetch_link c name values) (fun j => aret (Ok (update_path_info c j)))).
(** 460-508 [post_json], [put_json], [send_document]. *)
Definition send_document (c : client) (m : broker_method) (to : str) (body : json) : asks json :=
  abind (aret (url_ok (u_parse u (c_url c)))) (fun base =>
  abind (aret (if starts_with (S_ "/") to then url_ok (u_join u base to)
               else bind (url_ok (u_parse u to)) (fun t => url_ok (u_join u base (u_path u t))))) (fun to =>
    send c m to (Some body))).

(** * Publishing *)
(** 999-1026 [publish_provider_branch], 971-997 [publish_provider_tags]. *)
Definition publish_branch (c : client) (links : list link) (branch version : str) : asks unit :=
  abind (navigate (update_path_info c (doc_context links)) (S_ "pb:provider") []) (fun c =>
    match find_link w (c_info c) (S_ "pb:branch-version") with
    | Ok l =>
        abind (aret (parse_link_url uni_word l [(S_ "branch", branch); (S_ "version", version)])) (fun to =>
        abind (send_document c BPut to (JObj [])) (fun _ => aret (Ok tt)))
    | _ => aret (Err BLink)
    end).
Fixpoint push_tags (c : client) (l : link) (version : str) (tags : list str) : asks unit :=
  match tags with
  | [] => aret (Ok tt)
  | t :: tags' =>
      abind (aret (parse_link_url uni_word l [(S_ "version", version); (S_ "tag", t)])) (fun to =>
      abind (send_document c BPut to (JObj [])) (fun _ => push_tags c l version tags'))
  end.
Definition publish_tags (c : client) (links : list link) (tags : list str) (version : str) : asks unit :=
  abind (navigate (update_path_info c (doc_context links)) (S_ "pb:provider") []) (fun c =>
    match find_link w (c_info c) (S_ "pb:version-tag") with
    | Ok l => push_tags c l version tags
    | _ => aret (Err BLink)
    end).
(** 812-843 [publish_verification_results], with the payload that [build_payload] makes. *)
Definition publish_link_name : str := S_ "pb:publish-verification-results".
Definition publish_results (links : list link) (broker_url : str) (auth : option http_auth) (payload : json) (version : str)
    (tags : list str) (branch : option str) : asks json :=
  let c := with_url broker_url auth in
  abind (match branch with Some b => publish_branch c links b version | None => aret (Ok tt) end) (fun _ =>
  abind (match tags with [] => aret (Ok tt) | _ => publish_tags c links tags version end) (fun _ =>
  abind (aret (match find (fun l => str_eqb (ascii_lower (l_name l)) publish_link_name) links with
               | Some l => Ok l
               | None => Err BLink
               end)) (fun l =>
    send_document c BPost (or_nothing (l_href l)) payload))).

(** * Fetching pacts *)
(** pact_models [load_pact_from_json]: reading the JSON of a pact. *)
Context {P : Type}.
Variable load_pact : json -> option P.

(** 578-641 [fetch_pacts_from_broker]. [Err] of the outer result is the whole call's. *)
Fixpoint each {A B} (f : A -> asks B) (l : list A) : asks (list (result B)) :=
  match l with
  | [] => aret (Ok [])
  | a :: l' => fun h =>
      match f a h with
      | (r, h') => abind (each f l') (fun rs => aret (Ok (r :: rs))) h'
      end
  end.
(** [load_pact_from_json] fails with some other error than those of the broker ([BContent] here as in the second function). *)
Definition fetch_pact_of_link (c : client) (l : link) (values : list (str * str)) : asks (P * list link) :=
  match l_href l with
  | None => aret (Err BLink)
  | Some _ => abind (fetch_url c l values) (fun j =>
                aret (match load_pact j with Some p => Ok (p, links_from_json w j) | None => Err BContent end))
  end.
Definition fetch_pacts_from_broker (broker_url provider : str) (auth : option http_auth) : asks (list (result (P * list link))) :=
  let values := [(S_ "provider", provider)] in
  abind (navigate (with_url broker_url auth) (S_ "pb:latest-provider-pacts") values) (fun c =>
  abind (aret (iter_links w (c_info c) (S_ "pacts"))) (fun links =>
    each (fun l => fetch_pact_of_link c l values) links)).

(** 1028-1087 [ConsumerVersionSelector]: what is not set is left out. *)
Record selector := mkSelector { sel_consumer : option str; sel_tag : option str; sel_fallback_tag : option str; sel_latest : option bool;
  sel_deployed_or_released : option bool; sel_deployed : option bool; sel_released : option bool; sel_environment : option str;
  sel_main_branch : option bool; sel_branch : option str; sel_matching_branch : option bool; sel_fallback_branch : option str }.
Definition if_set {A} (k : str) (f : A -> json) (o : option A) : list (str * json) :=
  match o with Some a => [(k, f a)] | None => [] end.
Definition selector_json (s : selector) : json :=
  object (if_set (S_ "consumer") JStr (sel_consumer s) ++ if_set (S_ "tag") JStr (sel_tag s) ++
          if_set (S_ "fallbackTag") JStr (sel_fallback_tag s) ++ if_set (S_ "latest") JBool (sel_latest s) ++
          if_set (S_ "deployedOrReleased") JBool (sel_deployed_or_released s) ++ if_set (S_ "deployed") JBool (sel_deployed s) ++
          if_set (S_ "released") JBool (sel_released s) ++ if_set (S_ "environment") JStr (sel_environment s) ++
          if_set (S_ "mainBranch") JBool (sel_main_branch s) ++ if_set (S_ "branch") JStr (sel_branch s) ++
          if_set (S_ "matchingBranch") JBool (sel_matching_branch s) ++ if_set (S_ "fallbackBranch") JStr (sel_fallback_branch s)).
(** 1113-1137 [PactsForVerificationRequest], built at 674-680. *)
Definition selection_json (pending : bool) (wip_since : option str) (tags : list str) (branch : option str) (selectors : list selector) : json :=
  object ((match tags with [] => [] | _ => [(S_ "providerVersionTags", JArr (map JStr tags))] end) ++
          [(S_ "includePendingStatus", JBool pending)] ++
          if_set (S_ "includeWipPactsSince") JStr wip_since ++
          [(S_ "consumerVersionSelectors", JArr (map selector_json selectors))] ++
          if_set (S_ "providerVersionBranch") JStr branch).

(** Deserialisation of structures (serde): an object by the names of the fields, an array by their positions. *)
Definition struct_fields (required : nat) (names : list str) (j : json) : option (list (option json)) :=
  match j with
  | JObj m => Some (map (fun k => obj_get k m) names)
  | JArr l => if (required <=? length l)%nat && (length l <=? length names)%nat
              then Some (map (fun i => nth_error l i) (seq 0 (length names))) else None
  | _ => None
  end.
Definition de_str (j : json) : option str := match j with JStr s => Some s | _ => None end.
Definition de_bool (j : json) : option bool := match j with JBool b => Some b | _ => None end.
Definition de_option {A} (f : json -> option A) (j : json) : option (option A) :=
  match j with JNull => Some None | _ => option_map Some (f j) end.
Definition de_list {A} (f : json -> option A) (j : json) : option (list A) :=
  match j with JArr l => all_some (map f l) | _ => None end.
Definition de_map {A} (f : json -> option A) (j : json) : option (list (str * A)) :=
  match j with
  | JObj m => all_some (map (fun kv => option_map (pair (fst kv)) (f (snd kv))) m)
  | _ => None
  end.
Definition de_default {A} (f : json -> option A) (d : A) (o : option json) : option A := match o with Some j => f j | None => Some d end.
(** 130-142: [Link] with its defaults. *)
Definition de_link (j : json) : option link :=
  match struct_fields 0 [S_ "name"; S_ "href"; S_ "templated"; S_ "title"] j with
  | Some [n; h; t; ti] =>
      match de_default de_str (S_ "link") n, de_default (de_option de_str) None h, de_default de_bool false t, de_default (de_option de_str) None ti with
      | Some n, Some h, Some t, Some ti => Some (mkLink n h t ti)
      | _, _, _, _ => None
      end
  | _ => None
  end.
(** 1158-1169 [PactVerificationProperties]: [notices] has no default. *)
Record properties := mkProps { pr_pending : bool; pr_notices : list (list (str * str)) }.
Definition de_properties (j : json) : option properties :=
  match struct_fields 2 [S_ "pending"; S_ "notices"] j with
  | Some [p; Some n] =>
      match de_default de_bool false p, de_list (de_map de_str) n with
      | Some p, Some n => Some (mkProps p n)
      | _, _ => None
      end
  | _ => None
  end.
(** 1102-1110 [PactForVerification], 1139-1157 [PactVerificationContext] and the conversion. *)
Record pact_entry := mkPE { pe_short : str; pe_links : list (str * link); pe_props : properties }.
Definition de_pact (j : json) : option pact_entry :=
  match struct_fields 3 [S_ "shortDescription"; S_ "_links"; S_ "verificationProperties"] j with
  | Some [Some s; Some l; v] =>
      match de_str s, de_map de_link l, de_default (de_option de_properties) None v with
      | Some s, Some l, Some v => Some (mkPE s l (match v with Some p => p | None => mkProps false [] end))
      | _, _, _ => None
      end
  | _ => None
  end.
(** 1089-1101 [PactsForVerificationResponse], [PactsForVerificationBody]; 703-709: what cannot be read counts as no pacts. *)
Definition de_response (j : json) : option (list pact_entry) :=
  match struct_fields 1 [S_ "_embedded"] j with
  | Some [Some e] => match struct_fields 1 [S_ "pacts"] e with
                     | Some [Some p] => de_list de_pact p
                     | _ => None
                     end
  | _ => None
  end.
(** 711-730. *)
Definition pact_links (j : json) : result (list (link * properties)) :=
  match match de_response j with Some l => l | None => [] end with
  | [] => Err BNotFound
  | l => match all_some (map (fun p => option_map (fun k => (k, pe_props p)) (obj_get (S_ "self") (pe_links p))) l) with
         | Some l => Ok l
         | None => Err BLink
         end
  end.
(** 644-776 [fetch_pacts_dynamically_from_broker]. *)
Definition fetch_pacts_dynamically (broker_url provider : str) (pending : bool) (wip_since : option str) (tags : list str)
    (branch : option str) (selectors : list selector) (auth : option http_auth) : asks (list (result (P * properties * list link))) :=
  let values := [(S_ "provider", provider)] in
  abind (navigate (with_url broker_url auth) (S_ "pb:provider-pacts-for-verification") values) (fun c =>
  abind (aret (find_link w (c_info c) (S_ "self"))) (fun self =>
  abind (aret (parse_link_url uni_word self [])) (fun to =>
  abind (send_document c BPost to (selection_json pending wip_since tags branch selectors)) (fun answer =>
  abind (aret (pact_links answer)) (fun links =>
    each (fun lp => abind (fetch_pact_of_link c (fst lp) values) (fun r => aret (Ok (fst r, snd lp, snd r)))) links))))).
End Client.
