(** Model of the V2 matching engine, part 2: the plan built for an expected request
    (rust/pact_matching/src/engine/mod.rs:1280-1665, bodies.rs:50-275) and the result read from
    the executed plan (rust/pact_matching/src/lib.rs:1334-1530). The texts of annotations are
    dropped: only their place among the children matters. XML bodies are not modelled, nor are
    rules that hold unresolved references (building their parameters panics). *)
From Coq Require Import Ascii String List Arith NArith ZArith Lia Bool.
From Verif Require Import Base PathExp Json Text MatchingRules Matchers JsonCompare Headers Query ContentType Http Base64 Engine.
Import ListNotations.
Open Scope N_scope.

(** pact_models/src/matchingrules/mod.rs:255-281 [MatchingRule::name]. *)
Definition rule_name (r : rule) : str :=
  match r with
  | REquality => S_ "equality" | RRegex _ => S_ "regex" | RType => S_ "type"
  | RMinType _ => S_ "min-type" | RMaxType _ => S_ "max-type" | RMinMaxType _ _ => S_ "min-max-type"
  | RTimestamp _ => S_ "datetime" | RTime _ => S_ "time" | RDate _ => S_ "date"
  | RInclude _ => S_ "include" | RNumber => S_ "number" | RInteger => S_ "integer" | RDecimal => S_ "decimal"
  | RNull => S_ "null" | RContentType _ => S_ "content-type" | RArrayContains _ => S_ "array-contains"
  | RValues => S_ "values" | RBoolean => S_ "boolean" | RStatusCode _ => S_ "status-code"
  | RNotEmpty => S_ "not-empty" | RSemver => S_ "semver" | REachKey _ => S_ "each-key" | REachValue _ => S_ "each-value"
  end.
(** mod.rs:284-332 [MatchingRule::values], as the JSON object made from the map. *)
Definition def_values (d : definition) : json :=
  JObj ((S_ "rules", JArr (map (fun x => match x with inl r => rule_to_json r | inr _ => JNull end) (def_rules d)))
        :: match def_value d with [] => [] | v => [(S_ "value", JStr v)] end).
Definition rule_values (r : rule) : json :=
  match r with
  | RRegex s => JObj [(S_ "regex", JStr s)]
  | RMinType n => JObj [(S_ "min", JNum (PosInt n))]
  | RMaxType n => JObj [(S_ "max", JNum (PosInt n))]
  | RMinMaxType a b => JObj [(S_ "max", JNum (PosInt b)); (S_ "min", JNum (PosInt a))]
  | RTimestamp f | RTime f | RDate f => JObj [(S_ "format", JStr f)]
  | RInclude s => JObj [(S_ "value", JStr s)]
  | RContentType s => JObj [(S_ "value", JStr s)]
  | RArrayContains vs =>
      JObj [(S_ "variants", JArr (map (fun v => JArr [JNum (PosInt (fst v)); cat_to_v3_json rule_to_json (snd v); JObj []]) vs))]
  | RStatusCode s => JObj [(S_ "status", status_to_json s)]
  | REachKey d | REachValue d => def_values d
  | _ => JObj []
  end.
(** mod.rs:573-580 [for_single_item]. *)
Definition for_single_item (r : rule) : rule :=
  match r with RMinType _ | RMaxType _ | RMinMaxType _ _ => RType | _ => r end.

Section Plan.
Variable w : world.
Variable x : externals.
Variable ee : engine_texts.

Definition equality_node (e a : pnode) : pnode := action "match:equality" [e; a; value_node NNull].
(** engine/mod.rs:1349-1387 [build_matching_rule_node]. *)
Definition one_rule_node (e a : pnode) (collection : bool) (r : rule) : pnode :=
  let m := if collection then r else for_single_item r in
  PN (PAction (S_ "match:" ++ rule_name m)) None [e; a; value_node (NJson (rule_values m))].
Definition rule_node (e a : pnode) (rl : rulelist) (collection : bool) : pnode :=
  match rl_rules rl with
  | [r] => one_rule_node e a collection r
  | rs => action (match rl_logic rl with And => "and" | Or => "or" end) (map (one_rule_node e a collection) rs)
  end.

(** The paths the plans use: [DocPath::new] of fixed texts, all of which parse. *)
Definition known_path (s : string) : docpath :=
  match path_new (uni_alpha w) (uni_numeric w) (S_ s) with Ok p => p | _ => path_root end.

(** engine/mod.rs:1297-1320 [setup_method_plan]. *)
Definition method_plan (e : request) : pnode :=
  container (S_ "method")
    [annotation []; equality_node (value_node (NString (to_upper w (req_method e))))
                                  (action "upper-case" [resolve_node (known_path "$.method")])].
(** engine/mod.rs:1322-1347 [setup_path_plan]. *)
Definition path_plan (e : request) (c : context) : pnode :=
  let p := known_path "$.path" in
  let en := value_node (NString (req_path e)) in
  container (S_ "path")
    (annotation [] ::
     (if ctx_matcher_is_defined c p then [rule_node en (resolve_node p) (ctx_select_best c p) false]
      else [equality_node en (resolve_node p)])).
(** The message of a failed check on the entries (engine/mod.rs:1453-1464). *)
Definition join_entries (m : string) : pnode :=
  action "join" [text_node m; action "join-with" [text_node ", "; splat_node [action "apply" []]]].
(** engine/mod.rs:1389-1500 [setup_query_plan]. *)
Definition presence (p : docpath) (checks : list pnode) : pnode :=
  action "if" (action "check:exists" [resolve_node p] :: checks).
Definition query_item (c : context) (kv : str * list str) : pnode :=
  let (k, vs) := kv in
  let item := value_node (one_or_list vs) in
  let ip := join path_root k in
  let p := join (known_path "$.query") k in
  container k
    [annotation [];
     presence p [if ctx_matcher_is_defined c ip then rule_node item (resolve_node p) (ctx_select_best c ip) true
                 else equality_node item (resolve_node p)]].
Definition query_plan (e : request) (c : context) : pnode :=
  let p := known_path "$.query" in
  let none := action "expect:empty"
    [resolve_node p; action "join" [text_node "Expected no query parameters but got "; resolve_node p]] in
  container (S_ "query parameters")
    (match req_query e with
     | Some (kv :: q) =>
         let items := by_key (query_values (Some (kv :: q))) in
         map (query_item c) items ++
         [action "expect:entries" [value_node (NSlist (map fst items)); resolve_node p;
                                   join_entries "The following expected query parameters were missing: "];
          action "expect:only-entries" [value_node (NSlist (map fst items)); resolve_node p;
                                        join_entries "The following query parameters were not expected: "]]
     | _ => [none]
     end).
(** engine/mod.rs:1582-1622 [build_parameterised_header_plan]. *)
Definition parameter_check (kv : str * str) : pnode :=
  let (k, v) := kv in
  let p := join (known_path "parameters") k in
  container k
    [action "if" [action "check:exists" [current_node p];
                  equality_node (value_node (NString (to_lower w v))) (action "lower-case" [current_node p]);
                  action "error" [value_node (NString (S_ "Expected a " ++ k ++ S_ " value of '" ++ v ++ S_ "' but it was missing"))]]].
Definition parameterised_plan (p : docpath) (v : str) : pnode :=
  let (hv, ps) := first_and_rest (strip_parts w v) in
  action "tee"
    ([action "header:parse" [resolve_node p];
      equality_node (value_node (NString hv)) (action "to-string" [current_node (known_path "value")])] ++
     map parameter_check (parse_parameters w ps)).
(** engine/mod.rs:1502-1580 [setup_header_plan]. *)
Fixpoint indexed_plans (p : docpath) (i : N) (vs : list str) : list pnode :=
  match vs with
  | [] => []
  | v :: vs' => container (show_N i) [parameterised_plan (join_index p i) v] :: indexed_plans p (i + 1) vs'
  end.
Definition header_item (c : context) (kv : str * list str) : pnode :=
  let (k, vs) := kv in
  let item := value_node (one_or_list vs) in
  let ip := join path_root k in
  let p := join (known_path "$.headers") k in
  container k
    [annotation [];
     presence p
       (if ctx_matcher_is_defined c ip then [rule_node item (resolve_node p) (ctx_select_best c ip) true]
        else if str_in (to_lower w k) PARAMETERISED_HEADERS then
          match vs with [v] => [parameterised_plan p v] | _ => indexed_plans p 0 vs end
        else [equality_node item (resolve_node p)])].
Definition header_plan (e : request) (c : context) : pnode :=
  container (S_ "headers")
    (match req_headers e with
     | Some (kv :: h) =>
         let items := by_key (kv :: h) in
         map (header_item c) items ++
         [action "expect:entries" [action "lower-case" [value_node (NSlist (map fst items))];
                                   resolve_node (known_path "$.headers");
                                   join_entries "The following expected headers were missing: "]]
     | _ => []
     end).

(** bodies.rs:90-253 [JsonPlanBuilder::process_body_node]: the nodes added to the container. *)
Definition json_equality (v : json) (p : docpath) : pnode :=
  equality_node (value_node (NNamespaced (S_ "json") (json_show w v))) (current_node p).
(** bodies.rs:115-139, 163-188: an item of an array that is neither an array nor an object. *)
Definition item_check (c : context) (v : json) (p : docpath) : pnode :=
  action "if" (action "check:exists" [current_node p] ::
    (if ctx_matcher_is_defined c p
     then [annotation []; rule_node (value_node (NJson v)) (current_node p) (ctx_select_best c p) false]
     else [json_equality v p])).
Definition is_structure (v : json) : bool := match v with JArr _ | JObj _ => true | _ => false end.
(** bodies.rs:156-190: the node made for an item that is itself an array or an object is not added. *)
Fixpoint items_plan (c : context) (p : docpath) (i : N) (l : list json) : list pnode :=
  match l with
  | [] => []
  | v :: l' =>
      (if is_structure v then [] else [container (path_expr (join_index p i)) [item_check c v (join_index p i)]])
      ++ items_plan c p (i + 1) l'
  end.
(** bodies.rs:255-264 [should_apply_to_map_entries]. *)
Definition for_map_entries (rl : rulelist) : bool :=
  existsb (fun r => match r with RValues | REachKey _ | REachValue _ => true | _ => false end) (rl_rules rl).
Fixpoint json_plan (c : context) (j : json) (p : docpath) {struct j} : list pnode :=
  match j with
  | JArr items =>
      if ctx_matcher_is_defined c p then
        [annotation []; rule_node (value_node (NJson j)) (current_node p) (ctx_select_best c p) true] ++
        match items with
        | [] => []
        | template :: _ =>
            let ip := join p (S_ "[*]") in
            [action "for-each"
               [current_node p;
                container (path_expr ip)
                  (if is_structure template then json_plan c template ip else [item_check c template ip])]]
        end
      else match items with
           | [] => [action "json:expect:empty" [text_node "ARRAY"; current_node p]]
           | _ => action "json:match:length" [text_node "ARRAY"; value_node (NUint (len items)); current_node p]
                  :: items_plan c p 0 items
           end
  | JObj m =>
      let rl := ctx_select_best c p in
      (if negb (rl_is_empty rl) && for_map_entries rl then
         [annotation []; rule_node (value_node (NJson j)) (current_node p) rl true]
       else match m with
            | [] => [action "json:expect:empty" [text_node "OBJECT"; current_node p]]
            | _ => [action "json:expect:entries" [text_node "OBJECT"; value_node (NSlist (map fst m)); current_node p];
                    if negb (allow c) then action "expect:only-entries" [value_node (NSlist (map fst m)); current_node p]
                    else action "json:expect:not-empty" [text_node "OBJECT"; current_node p]]
            end) ++
      map (fun kv => let ip := push_field p (fst kv) in container (path_expr ip) (json_plan c (snd kv) ip)) m
  | _ =>
      if ctx_matcher_is_defined c p
      then [annotation []; rule_node (value_node (NJson j)) (current_node p) (ctx_select_best c p) false]
      else [json_equality j p]
  end.
(** bodies.rs:266-293 [build_plan] for JSON, 64-77 for plain text. *)
Definition json_body_plan (c : context) (b : list N) : outcome pnode str :=
  match json_of_bytes x b with
  | Some j => Ok (action "tee" [action "json:parse" [resolve_node (known_path "$.body")];
                                container (path_expr path_root) (json_plan c j path_root)])
  | None => Err (S_ "the expected body is not JSON")
  end.
Definition text_body_plan (b : list N) : pnode :=
  equality_node (value_node (NString (utf8_lossy ee b))) (action "convert:UTF8" [resolve_node (known_path "$.body")]).
(** engine/mod.rs:1624-1665 [setup_body_plan]; bodies.rs:44-48 [get_body_plan_builder]. [TEXT] is text/plain. *)
Definition TEXT : content_type := mkCT (S_ "text") (S_ "plain") [] None.
Definition expected_type (e : request) : content_type := dflt (content_type_of w x (req_part e)) TEXT.
Definition type_check (e : request) : pnode :=
  action "match:equality"
    [value_node (NString (ct_show (expected_type e))); resolve_node (known_path "$.content-type"); value_node NNull;
     action "error" [text_node "Body type error - "; action "apply" []]].
Definition body_plan (e : request) (c : context) : outcome pnode str :=
  match req_body e with
  | BMissing => Ok (container (S_ "body") [])
  | BEmpty | BNull => Ok (container (S_ "body") [action "expect:empty" [resolve_node (known_path "$.body")]])
  | BPresent b _ _ =>
      bind (if is_json (expected_type e) then json_body_plan c b
            else if is_xml (expected_type e) then Err (S_ "XML bodies are not modelled")
            else Ok (text_body_plan b)) (fun n =>
      Ok (container (S_ "body") [action "if" [type_check e; n]]))
  end.
(** engine/mod.rs:1281-1295 [build_request_plan]; 1236-1240 [ExecutionPlan::add]; lib.rs:1894-1905. *)
Definition plan_add (l : list pnode) (n : pnode) : list pnode := match pn_children n with [] => l | _ => l ++ [n] end.
Definition request_plan (e : request) : outcome pnode str :=
  let rs := req_rules e in
  bind (body_plan e (ctx_for false CBody rs)) (fun b =>
  Ok (container (S_ "request")
        (fold_left plan_add [method_plan e; path_plan e (ctx_for false CPath rs); query_plan e (ctx_for false CQuery rs);
                             header_plan e (ctx_for false CHeader rs); b] []))).

(** ** The result *)
(** engine/mod.rs:1121-1136 [child_errors]; [all] is [Terminator::ALL]. *)
Definition is_container (n : pnode) : bool := match pn_type n with PContainer _ => true | _ => false end.
Definition own_error (n : pnode) : list str := match pn_result n with Some (NErr e) => [e] | _ => [] end.
Fixpoint errors_below (all : bool) (n : pnode) : list str :=
  match n with
  | PN t r ch =>
      flat_map (fun c => if all || negb (is_container c) then own_error c ++ errors_below all c else []) ch
  end.
(** engine/mod.rs:1139-1155 [error], [errors]. *)
Definition node_error (n : pnode) : option str :=
  match pn_result n with Some (NErr e) => Some e | _ => hd_error (errors_below false n) end.
Definition node_errors (n : pnode) : list str := own_error n ++ errors_below true n.
(** engine/mod.rs:1158-1187 [fetch_node], [matches]. *)
Definition node_is (n : pnode) (id : str) : bool :=
  match pn_type n with
  | PContainer l => str_eqb (S_ ":" ++ l) id
  | PAction a => str_eqb (S_ "%" ++ a) id
  | PResolve p => str_eqb (path_expr p) id
  | PPipeline => str_eqb (S_ "->") id
  | PResolveCurrent p => str_eqb (S_ "~>" ++ path_expr p) id
  | PSplat => str_eqb (S_ "**") id
  | _ => false
  end.
Fixpoint find_map {A B} (f : A -> option B) (l : list A) : option B :=
  match l with [] => None | a :: l' => match f a with Some b => Some b | None => find_map f l' end end.
Fixpoint fetch_node (path : list str) (n : pnode) : option pnode :=
  match path with
  | [] => None
  | id :: path' =>
      if node_is n id then match path' with [] => Some n | _ => find_map (fetch_node path') (pn_children n) end
      else None
  end.
Definition empty_node : pnode := PN PEmpty None [].
Definition part_of (plan : pnode) (name : string) : pnode :=
  dflt (fetch_node [S_ ":request"; S_ ":" ++ S_ name] plan) empty_node.
(** engine/mod.rs:1190-1209 [traverse_containers]: the containers below a node, in order. *)
Fixpoint containers (n : pnode) : list (str * pnode) :=
  match n with
  | PN t r ch => flat_map (fun c => match pn_type c with PContainer l => [(l, c)] | _ => [] end ++ containers c) ch
  end.

(** lib.rs:1252-1264: the result; a mismatch is its message. *)
Inductive v2_body := V2Ok | V2TypeMismatch (m : str) | V2Mismatches (g : list (str * list str)).
Record v2_result := mkV2 {
  v2_method : option str; v2_path : option (list str); v2_query : list (str * list str);
  v2_headers : list (str * list str); v2_body_result : v2_body }.
(** lib.rs:1346-1445 [method_mismatch], [path_mismatch], [query_mismatches], [header_mismatches]. *)
Definition method_mismatch (plan : pnode) : option str := node_error (part_of plan "method").
Definition path_mismatch (plan : pnode) : option (list str) := err_list (node_errors (part_of plan "path")).
Definition entry_mismatches (n : pnode) : list (str * list str) :=
  let found := fold_left (fun acc c =>
    match pn_type c with
    | PContainer l => sm_insert l (node_errors c) acc
    | _ => match node_errors c with
           | [] => acc
           | es => match obj_get [] acc with
                   | Some es' => sm_insert [] (es' ++ es) acc
                   | None => sm_insert [] [] acc
                   end
           end
    end) (pn_children n) [] in
  match errors_below false n with [] => found | es => sm_insert [] es found end.
(** lib.rs:1447-1505 [body_mismatches]. *)
Definition v2_body_mismatches (plan : pnode) : v2_body :=
  let n := part_of plan "body" in
  if is_truthy (pn_value n) then V2Ok
  else match pn_type n, pn_children n with
       | PEmpty, _ | _, [] =>
           match pn_result n with Some (NErr e) => V2Mismatches [([], [e])] | _ => V2Ok end
       | _, _ =>
           let first := dflt (node_error n) [] in
           if starts_with (S_ "body type error") (to_lower w first) then V2TypeMismatch first
           else
             let g := fold_left (fun acc lc =>
               match errors_below false (snd lc) with [] => acc | es => sm_insert (fst lc) es acc end) (containers n) [] in
             V2Mismatches (match first with
                           | [] => g
                           | _ => sm_insert [] (dflt (obj_get [] g) [] ++ [first]) g
                           end)
       end.
(** lib.rs:1508-1523 [From<ExecutionPlan> for RequestMatchResult]. *)
Definition read_result (plan : pnode) : v2_result :=
  mkV2 (method_mismatch plan) (path_mismatch plan) (entry_mismatches (part_of plan "query parameters"))
       (entry_mismatches (part_of plan "headers")) (v2_body_mismatches plan).
(** lib.rs:1241-1248, 1334-1339 [all_matched]. *)
Definition v2_body_matched (b : v2_body) : bool :=
  match b with V2Ok => true | V2TypeMismatch _ => false | V2Mismatches g => forallb (fun kv => is_nil (snd kv)) g end.
Definition v2_all_matched (r : v2_result) : bool :=
  is_none (v2_method r) && is_none (v2_path r) && forallb (fun kv => is_nil (snd kv)) (v2_query r) &&
  forallb (fun kv => is_nil (snd kv)) (v2_headers r) && v2_body_matched (v2_body_result r).

(** lib.rs:1890-1915 [match_request] with the V2 engine; engine/mod.rs:1651-1665
    [execute_request_plan]. [fuel] bounds the walk of the plan. *)
Definition match_request_v2 (fuel : nat) (e a : request) : run v2_result :=
  match request_plan e with
  | Ok plan => then_ (walk w x ee a fuel [] plan) (fun st n => Runs st (read_result n))
  | Err m => Fails [] m
  | Panic => Panics
  end.
End Plan.
