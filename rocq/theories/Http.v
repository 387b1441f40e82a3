(** Model of request and response matching: rust/pact_matching/src/lib.rs (the default,
    V1 matching engine without plugins), json.rs [match_json], form_urlencoded.rs,
    binary_utils.rs [match_octet_stream]. *)
From Coq Require Import Ascii String List Arith NArith ZArith Lia Bool.
From Verif Require Import Base PathExp Json Text MatchingRules Matchers JsonCompare Headers Query ContentType.
Import ListNotations.
Open Scope N_scope.

(** More functions of external crates and parts of the code that are not modelled;
    arbitrary in every theorem. *)
Record externals := mkExt {
  parse_mime : str -> option content_type;  (* mime::Mime::from_str and From<Mime> *)
  detect_text : str -> content_type;        (* detect_content_type_from_string: regular expressions; always Some *)
  detect_bytes : list N -> option content_type; (* detect_content_type_from_bytes *)
  json_of_bytes : list N -> option json;    (* serde_json::from_slice *)
  form_of_bytes : list N -> option (list (str * str)); (* serde_urlencoded::from_bytes *)
  bytes_content_type_ok : list N -> str -> bool; (* match_content_type *)
  match_xml : body -> body -> context -> list mismatch; (* xml.rs match_xml *)
  match_multipart : option hmap -> body -> option hmap -> body -> context -> list mismatch (* match_mime_multipart *)
}.

(** v4/http_parts.rs [HttpRequest] and [HttpResponse]; the generators are not used by matching. *)
Record request := mkReq { req_method : str; req_path : str; req_query : option query_map;
  req_headers : option hmap; req_body : body; req_rules : matching_rules }.
Record response := mkResp { resp_status : N; resp_headers : option hmap; resp_body : body; resp_rules : matching_rules }.
(** The view of either as an [HttpPart]. *)
Record part := mkPart { part_headers : option hmap; part_body : body }.
Definition req_part (r : request) : part := mkPart (req_headers r) (req_body r).
Definition resp_part (r : response) : part := mkPart (resp_headers r) (resp_body r).

(** matchingrules/mod.rs:1276-1279 [rules_for_category], then [unwrap_or_default] (903-907, 815: BODY, no rules). *)
Fixpoint rules_for (n : category_name) (m : matching_rules) : category :=
  match m with
  | [] => cat_empty CBody
  | (n', c) :: m' => if cat_eqb n n' then c else rules_for n m'
  end.

Section Http.
Variable w : world.
Variable x : externals.

(** lib.rs:1608-1614 [match_method]: true is [Ok]. *)
Definition match_method (e a : str) : bool := str_eqb (to_lower w e) (to_lower w a).
(** lib.rs:1617-1631 [match_path]. *)
Definition match_path (e a : str) (c : context) : list mismatch_kind :=
  if ctx_matcher_is_defined c path_empty then match_values (str_matches w e a) (ctx_select_best c path_empty)
  else if str_matches w e a REquality false then [] else [KNotEqual].

(** ** Content type of a part *)
(** http_parts.rs:81-88 [lookup_header_value]. *)
Definition lookup_header_value (h : option hmap) (name : str) : option str :=
  match h with
  | Some m => match find_header w m name with Some vs => Some (join_with (S_ ", ") vs) | None => None end
  | None => None
  end.
(** http_parts.rs:48-59 [detect_content_type]. *)
Definition detect_content_type (b : body) : option content_type :=
  match b with
  | BPresent bytes _ _ => Some (detect_text x (match from_utf8 bytes with Some s => s | None => [] end))
  | _ => None
  end.
(** http_parts.rs:63-76 [content_type] with [lookup_content_type] = the content-type header
    (v4/http_parts.rs), then [unwrap_or_default]. *)
Definition part_content_type (p : part) : content_type :=
  match body_content_type (part_body p) with
  | Some ct => ct
  | None =>
      match (match lookup_header_value (part_headers p) (S_ "content-type") with
             | Some h => match parse_mime x h with Some v => Some v | None => detect_content_type (part_body p) end
             | None => detect_content_type (part_body p)
             end) with
      | Some v => v
      | None => ct_default
      end
  end.

(** ** Bodies *)
Definition root_mm (k : mismatch_kind) : mismatch := mkMM (S_ "$") k.
(** The kinds of body mismatches that are not rule failures. *)
Definition KUnreadable : mismatch_kind := KParameters.

(** json.rs:287-318 [match_json]. *)
Definition match_json (e a : body) (c : context) : list mismatch :=
  match json_of_bytes x (body_bytes e), json_of_bytes x (body_bytes a) with
  | Some je, Some ja => compare_json w path_root je ja c
  | None, None => [root_mm KUnreadable; root_mm KUnreadable]
  | _, _ => [root_mm KUnreadable]
  end.

(** lib.rs:1544-1605 [match_text] on the body values. *)
Definition opt_bytes_eqb (a b : option (list N)) : bool := opt_str_eqb a b.
Definition text_of (v : option (list N)) : list mismatch * str :=
  match from_utf8 (match v with Some s => s | None => [] end) with
  | Some s => ([], s)
  | None => ([root_mm KUnreadable], [])
  end.
Definition match_text (e a : option (list N)) (c : context) : list mismatch :=
  if ctx_matcher_is_defined c path_root then
    fst (text_of e) ++ fst (text_of a) ++
    map root_mm (match_values (str_matches w (snd (text_of e)) (snd (text_of a))) (ctx_select_best c path_root))
  else if opt_bytes_eqb e a then [] else [root_mm KNotEqual].

(** matchers.rs:713-770 [Matches<&Bytes> for Bytes]: the error texts show the first ten
    bytes with [split_at(10)], which panics on shorter slices. *)
Definition short (b : list N) : bool := Nat.ltb (length b) 10.
Definition bytes_matches (e a : list N) (r : rule) (cascaded : bool) : outcome bool unit :=
  match r with
  | RRegex pat => Ok (match from_utf8 a with Some s => regex_ok w pat s | None => false end)
  | REquality => if str_eqb e a then Ok true else if short e || short a then Panic else Ok false
  | RType | RMinType _ | RMaxType _ | RMinMaxType _ _ => Ok true
  | RInclude sub => Ok (match from_utf8 a with Some s => contains sub s | None => false end)
  | RContentType ct => Ok (bytes_content_type_ok x a ct)
  | RNotEmpty => Ok (nonempty a)
  | _ => if unable cascaded r then Ok true else if short a then Panic else Ok false
  end.
Fixpoint failed_rules (e a : list N) (cascaded : bool) (rs : list rule) : outcome (list (rule * bool)) unit :=
  match rs with
  | [] => Ok []
  | r :: rs' => bind (bytes_matches e a r cascaded) (fun b =>
                bind (failed_rules e a cascaded rs') (fun l => Ok ((r, b) :: l)))
  end.
(** binary_utils.rs:121-187 [match_octet_stream]. *)
Definition match_octet_stream (e a : body) (c : context) : outcome (list mismatch) unit :=
  let eb := body_bytes e in
  let ab := body_bytes a in
  if ctx_matcher_is_defined c path_root then
    let rl := ctx_select_best c path_root in
    if rl_is_empty rl then Ok [root_mm KNoMatcher]
    else bind (failed_rules eb ab (rl_cascaded rl) (rl_rules rl)) (fun results =>
      let errs := map (fun rb => root_mm (KRule (fst rb))) (filter (fun rb => negb (snd rb)) results) in
      match rl_logic rl with
      | And => Ok errs
      | Or => if forallb (fun rb => negb (snd rb)) results then Ok errs else Ok []
      end)
  else Ok (if str_eqb eb ab then [] else [root_mm KNotEqual]).

(** form_urlencoded.rs:11-88 [match_form_urlencoded]; lib.rs:1663-1673 [group_by] keeps the
    values of a name in order. *)
Fixpoint group_pairs (l : list (str * str)) (m : query_map) : query_map :=
  match l with
  | [] => m
  | (k, v) :: l' =>
      group_pairs l' (match obj_get k m with
                      | Some vs => sm_insert k (vs ++ [Some v]) m
                      | None => m ++ [(k, [Some v])]
                      end)
  end.
Definition match_form_urlencoded (e a : body) (c : context) : list mismatch :=
  match e with
  | BMissing | BNull => []
  | BEmpty => match a with BEmpty => [] | _ => [root_mm KNotEmpty] end
  | BPresent eb _ _ =>
      match form_of_bytes x eb, form_of_bytes x (body_bytes a) with
      | None, None => [root_mm KUnreadable; root_mm KUnreadable]
      | None, Some _ | Some _, None => [root_mm KUnreadable]
      | Some ef, Some af =>
          flat_map (fun kv => map (fun m => mkMM (S_ "$." ++ mm_path m) (mm_kind m)) (snd kv))
            (match_query_maps w (group_pairs ef []) (group_pairs af []) c)
      end
  end.

Definition is_content_type_rule (r : rule) : bool := match r with RContentType _ => true | _ => false end.
(** lib.rs:747-758 [BODY_MATCHERS] and 1757-1789 [compare_bodies_core]. The comparisons of
    [base_type()] with a text (content_types.rs:240-256) parse that text. *)
Definition ct_is (c : content_type) (s : str) : bool :=
  match parse_mime x s with Some v => ct_eqb c v | None => false end.
Definition compare_bodies_core (ct : content_type) (e a : part) (c : context) : outcome (list mismatch) unit :=
  if is_json ct then Ok (match_json (part_body e) (part_body a) c)
  else if is_xml ct then Ok (match_xml x (part_body e) (part_body a) c)
  else if main_is ct (S_ "multipart") then
    Ok (match_multipart x (part_headers e) (part_body e) (part_headers a) (part_body a) c)
  else if ct_is (base_type ct) (S_ "application/x-www-form-urlencoded") then
    Ok (match_form_urlencoded (part_body e) (part_body a) c)
  else if is_binary ct || ct_is (base_type ct) (S_ "application/octet-stream") then
    match_octet_stream (part_body e) (part_body a) c
  else if ctx_matcher_is_defined c path_root &&
          existsb is_content_type_rule (rl_rules (ctx_select_best c path_root)) then
    match_octet_stream (part_body e) (part_body a) c
  else Ok (match_text (body_value (part_body e)) (body_value (part_body a)) c).

(** lib.rs:1200-1219 [enum BodyMatchResult]; the mismatches grouped by path. *)
Inductive body_result := BodyOk | BodyTypeMismatch | BodyMismatches (groups : list (str * list mismatch)).
(** lib.rs:1663-1673 [group_by] with the path as the key. *)
Fixpoint group_mismatches (l : list mismatch) (g : list (str * list mismatch)) : list (str * list mismatch) :=
  match l with
  | [] => g
  | m :: l' =>
      group_mismatches l' (match obj_get (mm_path m) g with
                           | Some ms => sm_insert (mm_path m) (ms ++ [m]) g
                           | None => g ++ [(mm_path m, [m])]
                           end)
  end.
(** lib.rs:1675-1755 [compare_bodies] without plugins. *)
Definition compare_bodies (ct : content_type) (e a : part) (c : context) : outcome body_result unit :=
  bind (compare_bodies_core ct e a c) (fun ms =>
    Ok (match ms with [] => BodyOk | _ => BodyMismatches (group_mismatches ms []) end)).
Definition body_problem (k : mismatch_kind) : outcome body_result unit := Ok (BodyMismatches [(S_ "$", [mkMM (S_ "/") k])]).
(** lib.rs:1792-1830 [match_body_content]. *)
Definition match_body_content (ct : content_type) (e a : part) (c : context) : outcome body_result unit :=
  match part_body e, part_body a with
  | BMissing, _ => Ok BodyOk
  | BNull, BPresent _ _ _ => body_problem KNotEmpty
  | BEmpty, BPresent _ _ _ => body_problem KNotEmpty
  | BNull, _ => Ok BodyOk
  | BEmpty, _ => Ok BodyOk
  | _, BMissing => body_problem KAbsent
  | _, BEmpty => body_problem KAbsent
  | _, _ => compare_bodies ct e a c
  end.
(** lib.rs:1833-1866 [match_body]. *)
Definition content_types_compatible (e a : content_type) (hc : context) : bool :=
  is_unknown e || is_unknown a || is_equivalent_to e a || is_equivalent_to e (base_type a) ||
  (negb (rl_is_empty (ctx_select_best hc (join path_root (S_ "content-type")))) &&
   negb (nonempty (match_header_value w (S_ "Content-Type") 0 (ct_show e) (ct_show a) hc))).
Definition match_body (e a : part) (c hc : context) : outcome body_result unit :=
  let ect := part_content_type e in
  let act := part_content_type a in
  if content_types_compatible ect act hc then match_body_content ect e a c
  else if body_present (part_body e) then Ok BodyTypeMismatch else Ok BodyOk.

(** ** Requests *)
(** lib.rs:1252-1264 [struct RequestMatchResult]: [method] and [path] are [true] / [None] for a match. *)
Record request_result := mkRR {
  r_method : bool; r_path : option (list mismatch_kind); r_body : body_result;
  r_query : list (str * list mismatch); r_headers : list (str * list mismatch) }.
Definition ctx_for (allow_ : bool) (n : category_name) (m : matching_rules) : context := mkCtx allow_ (rules_for n m).
(** [Result::err()] of a mismatch list. *)
Definition err_list {A} (l : list A) : option (list A) := match l with [] => None | _ => Some l end.
(** lib.rs:1869-1940 [match_request]. *)
Definition match_request (e a : request) : outcome request_result unit :=
  let rs := req_rules e in
  let hc := header_context w (ctx_for false CHeader rs) in
  bind (match_body (req_part e) (req_part a) (ctx_for false CBody rs) hc) (fun b =>
  Ok (mkRR (match_method (req_method e) (req_method a))
           (err_list (match_path (req_path e) (req_path a) (ctx_for false CPath rs)))
           b
           (match_query w (req_query e) (req_query a) (ctx_for false CQuery rs))
           (match_headers w (req_headers e) (req_headers a) hc))).

(** What a mismatch is about (lib.rs [enum Mismatch]). *)
Inductive request_mismatch :=
| MMethod | MPath (k : mismatch_kind) | MStatus (k : mismatch_kind) | MQuery (m : mismatch) | MHeader (m : mismatch)
| MBodyType | MBody (m : mismatch) | MMetadata (key : str) (k : mismatch_kind).
(** lib.rs:1223-1238 [BodyMatchResult::mismatches], 1241-1248 [all_matched]. *)
Definition body_mismatches (b : body_result) : list request_mismatch :=
  match b with
  | BodyOk => []
  | BodyTypeMismatch => [MBodyType]
  | BodyMismatches g => map MBody (flat_map snd g)
  end.
Definition is_nil {A} (l : list A) : bool := negb (nonempty l).
Definition body_all_matched (b : body_result) : bool :=
  match b with
  | BodyOk => true
  | BodyTypeMismatch => false
  | BodyMismatches g => forallb (fun kv => is_nil (snd kv)) g
  end.
(** lib.rs:1268-1286 [mismatches]. *)
Definition mismatches (r : request_result) : list request_mismatch :=
  (if r_method r then [] else [MMethod]) ++
  (match r_path r with Some l => map MPath l | None => [] end) ++
  map MQuery (flat_map snd (r_query r)) ++
  map MHeader (flat_map snd (r_headers r)) ++
  body_mismatches (r_body r).
(** lib.rs:1334-1339 [all_matched], 1342-1344 [method_or_path_mismatch]. *)
Definition is_none {A} (o : option A) : bool := match o with None => true | Some _ => false end.
Definition all_matched (r : request_result) : bool :=
  r_method r && is_none (r_path r) && forallb (fun kv => is_nil (snd kv)) (r_query r) &&
  forallb (fun kv => is_nil (snd kv)) (r_headers r) && body_all_matched (r_body r).
Definition method_or_path_mismatch (r : request_result) : bool := negb (r_method r) || negb (is_none (r_path r)).

(** lib.rs:1289-1331 [score], an [i8]: [wrap8] is what a release build computes; a debug
    build panics when a step leaves the range. *)
Definition wrap8 (z : Z) : Z := ((z + 128) mod 256 - 128)%Z.
Definition point (b : bool) : Z := if b then 1%Z else (-1)%Z.
Definition points (g : list (str * list mismatch)) : list Z := map (fun kv => point (is_nil (snd kv))) g.
Definition score_steps (r : request_result) : list Z :=
  [point (r_method r)] ++ [point (is_none (r_path r))] ++ points (r_query r) ++ points (r_headers r) ++
  match r_body r with
  | BodyOk => []
  | BodyTypeMismatch => [point false]
  | BodyMismatches g => points g
  end.
Definition score (r : request_result) : Z := fold_left (fun s d => wrap8 (s + d)%Z) (score_steps r) 0%Z.
Definition fits8 (z : Z) : bool := ((-128 <=? z) && (z <=? 127))%Z.
Definition score_debug (r : request_result) : outcome Z unit :=
  fold_left (fun s d => bind s (fun s => if fits8 (s + d)%Z then Ok (s + d)%Z else Panic)) (score_steps r) (Ok 0%Z).

(** ** Responses *)
(** lib.rs:1970-2013 [match_response]. *)
Definition match_response (e a : response) : outcome (list request_mismatch) unit :=
  let rs := resp_rules e in
  let hc := header_context w (ctx_for false CHeader rs) in
  bind (match_body (resp_part e) (resp_part a) (ctx_for true CBody rs) hc) (fun b =>
  Ok (body_mismatches b ++
      map MStatus (match_status w (resp_status e) (resp_status a) (rules_for CStatus rs)) ++
      map MHeader (flat_map snd (match_headers w (resp_headers e) (resp_headers a) hc)))).

(** ** Messages *)
(** v4/message_parts.rs:25-34 [MessageContents]. *)
Record message := mkMsg { msg_contents : body; msg_metadata : list (str * json); msg_rules : matching_rules }.
(** v4/mod.rs:64-78 [calc_content_type] on [metadata_to_headers]
    (message_parts.rs:179-185: only the key "contentType"). *)
Definition or_else {A} (a b : option A) : option A := match a with Some _ => a | None => b end.
Definition message_content_type (m : message) : content_type :=
  match or_else (body_content_type (msg_contents m))
        (or_else (match obj_get (S_ "contentType") (msg_metadata m) with
                  | Some v => parse_mime x (json_to_string w v)
                  | None => None
                  end)
                 (if body_present (msg_contents m) then detect_bytes x (body_bytes (msg_contents m)) else None)) with
  | Some ct => ct
  | None => ct_default
  end.
(** [MessageContents] as an [HttpPart] (message_parts.rs:135-177); its [headers()] is
    [unimplemented!()], so the multipart comparison panics. *)
Definition msg_part (m : message) : part := mkPart None (msg_contents m).
Definition msg_compare (ct : content_type) (e a : message) (c : context) : outcome body_result unit :=
  match msg_contents e, msg_contents a with
  | (BPresent _ _ _), (BPresent _ _ _ | BNull) =>
      if negb (is_json ct) && negb (is_xml ct) && main_is ct (S_ "multipart") then Panic
      else match_body_content ct (msg_part e) (msg_part a) c
  | _, _ => match_body_content ct (msg_part e) (msg_part a) c
  end.
(** lib.rs:2017-2056 [match_message_contents]. *)
Definition match_message_contents (e a : message) (c : context) : outcome (list request_mismatch) unit :=
  if is_equivalent_to (message_content_type e) (message_content_type a) then
    bind (msg_compare (message_content_type e) e a c) (fun b => Ok (body_mismatches b))
  else if body_present (msg_contents e) then Ok [MBodyType] else Ok [].
(** lib.rs:2090-2118 [match_metadata_value]. *)
Definition json_str_or_empty (j : json) : str := match j with JStr s => s | _ => [] end.
Definition match_metadata_value (key : str) (e a : json) (c : context) : list mismatch_kind :=
  let p := join path_root key in
  if ctx_matcher_is_defined c p then match_values (json_matches w e a) (ctx_select_best c p)
  else if str_eqb (ascii_lower key) (S_ "contenttype") || str_eqb (ascii_lower key) (S_ "content-type") then
    match_parameter_header w (json_str_or_empty e) (json_str_or_empty a)
  else if json_matches w e a REquality false then [] else [KNotEqual].
(** lib.rs:2059-2087 [match_message_metadata]. *)
Definition match_message_metadata (e a : message) (c : context) : list (str * list mismatch_kind) :=
  map (fun kv => (fst kv, match obj_get (fst kv) (msg_metadata a) with
    | Some v => match_metadata_value (fst kv) (snd kv) v c
    | None => [KAbsent]
    end)) (msg_metadata e).
(** lib.rs:2121-2171 [match_message] on two messages, and 2184-2217 [match_sync_message_request].
    V4 messages take the rules of the category named "content", which is read as BODY. *)
Definition match_message (e a : message) : outcome (list request_mismatch) unit :=
  bind (match_message_contents e a (ctx_for true CBody (msg_rules e))) (fun ms =>
  Ok (ms ++ flat_map (fun kv => map (MMetadata (fst kv)) (snd kv))
              (match_message_metadata e a (ctx_for true CMetadata (msg_rules e))))).
(** lib.rs:2220-2279 [match_sync_message_response]. *)
Fixpoint match_each (es as_ : list message) : outcome (list request_mismatch) unit :=
  match es, as_ with
  | e :: es', a :: as_' => bind (match_message e a) (fun m => bind (match_each es' as_') (fun ms => Ok (m ++ ms)))
  | _, _ => Ok []
  end.
Definition match_sync_responses (es as_ : list message) : outcome (list request_mismatch) unit :=
  if Nat.eqb (length es) (length as_) then match_each es as_
  else Ok (if nonempty es then [MBodyType] else []).
(** lib.rs:2175-2180 [match_sync_message]. *)
Definition match_sync_message (e a : message * list message) : outcome (list request_mismatch) unit :=
  bind (match_message (fst e) (fst a)) (fun ms =>
  bind (match_sync_responses (snd e) (snd a)) (fun rs => Ok (ms ++ rs))).
End Http.
