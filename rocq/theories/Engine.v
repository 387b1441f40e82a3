(** Model of the V2 matching engine (rust/pact_matching/src/engine, switched on with
    [MATCHING_ENGINE=v2]): the plan tree of mod.rs and the interpreter of interpreter.rs.
    XML values and the xml: actions are not modelled. Messages are reduced to their fixed
    first words where they quote values: the text of an error never decides what is executed. *)
From Coq Require Import Ascii String List Arith NArith ZArith Lia Bool.
From Verif Require Import Base PathExp Json Text MatchingRules Matchers JsonCompare Headers Query ContentType Http Base64.
Import ListNotations.
Open Scope N_scope.

(** mod.rs:67-94 [enum NodeValue]; a [HashMap] is the list of its entries, without [XML]. *)
Inductive nvalue :=
| NNull | NString (s : str) | NBool (b : bool) | NMmap (m : list (str * list str)) | NSlist (l : list str)
| NBytes (l : list N) | NNamespaced (name value : str) | NUint (n : N) | NJson (j : json)
| NEntry (k : str) (v : nvalue) | NList (l : list nvalue).
(** mod.rs:440-449 [enum NodeResult]. *)
Inductive nresult := NOk | NVal (v : nvalue) | NErr (s : str).
(** mod.rs:40-64 [enum PlanNodeType]; 591-600 [struct ExecutionPlanNode]. *)
Inductive ntype :=
| PEmpty | PContainer (label : str) | PAction (name : str) | PValue (v : nvalue) | PResolve (p : docpath)
| PPipeline | PResolveCurrent (p : docpath) | PSplat | PAnnotation (s : str).
Inductive pnode := PN (t : ntype) (r : option nresult) (ch : list pnode).
Definition pn_type (n : pnode) : ntype := match n with PN t _ _ => t end.
Definition pn_result (n : pnode) : option nresult := match n with PN _ r _ => r end.
Definition pn_children (n : pnode) : list pnode := match n with PN _ _ ch => ch end.
(** [ExecutionPlanNode::value().unwrap_or_default()]. *)
Definition pn_value (n : pnode) : nresult := match pn_result n with Some r => r | None => NOk end.
(** mod.rs:604-620 [clone_with_value], [clone_with_result]. *)
Definition with_result (n : pnode) (r : nresult) : pnode := match n with PN t _ ch => PN t (Some r) ch end.
Definition with_value (n : pnode) (v : nvalue) : pnode := with_result n (NVal v).
(** mod.rs:857-944: the constructors; [add] appends a child. *)
Definition container (l : str) (ch : list pnode) : pnode := PN (PContainer l) None ch.
Definition action (a : string) (ch : list pnode) : pnode := PN (PAction (S_ a)) None ch.
Definition value_node (v : nvalue) : pnode := PN (PValue v) None [].
Definition text_node (s : string) : pnode := value_node (NString (S_ s)).
Definition resolve_node (p : docpath) : pnode := PN (PResolve p) None [].
Definition current_node (p : docpath) : pnode := PN (PResolveCurrent p) None [].
Definition annotation (s : str) : pnode := PN (PAnnotation s) None [].
Definition splat_node (ch : list pnode) : pnode := PN PSplat None ch.
Definition is_splat (n : pnode) : bool := match pn_type n with PSplat => true | _ => false end.

(** mod.rs:264-276 [NodeValue::truthy]. *)
Definition truthy_v (v : nvalue) : bool :=
  match v with
  | NString s => nonempty s
  | NBool b => b
  | NMmap m => nonempty m
  | NSlist l => nonempty l
  | NBytes b => nonempty b
  | NUint u => negb (u =? 0)
  | NList l => nonempty l
  | _ => false
  end.
(** mod.rs:246-262 [NodeValue::and], [or]. *)
Definition and_v (a b : nvalue) : nvalue :=
  match a with
  | NNull => b
  | NBool x => NBool (x && truthy_v b)
  | _ => NBool (truthy_v a && truthy_v b)
  end.
Definition or_v (a b : nvalue) : nvalue :=
  match a with
  | NNull => b
  | NBool x => NBool (x || truthy_v b)
  | _ => NBool (truthy_v a || truthy_v b)
  end.
(** mod.rs:451-470 [NodeResult::and]. *)
Definition and_r (a : nresult) (o : option nresult) : nresult :=
  match o with
  | None => a
  | Some r =>
      match a with
      | NOk => r
      | NVal v1 => match r with NOk => a | NVal v2 => NVal (and_v v1 v2) | NErr _ => r end
      | NErr _ => a
      end
  end.
(** mod.rs:521-541 [is_truthy], [truthy]; 553-559 [is_err]. *)
Definition is_truthy (r : nresult) : bool := match r with NOk => true | NVal v => truthy_v v | NErr _ => false end.
Definition truthy (r : nresult) : nresult := NVal (NBool (is_truthy r)).
Definition is_err (r : nresult) : bool := match r with NErr _ => true | _ => false end.
(** mod.rs:498-506 [as_value], then [unwrap_or_default]. *)
Definition as_value (r : nresult) : option nvalue := match r with NVal v => Some v | _ => None end.
Definition value_or_null (r : nresult) : nvalue := match r with NVal v => v | _ => NNull end.
(** mod.rs:544-550 [value_or_error]. *)
Definition value_or_error (r : nresult) : nvalue + str :=
  match r with NOk => inl (NBool true) | NVal v => inl v | NErr e => inr e end.
(** mod.rs:207-243 [as_json], [as_string], [as_bool], [as_uint], [as_slist]. *)
Definition v_json (v : nvalue) : option json := match v with NJson j => Some j | _ => None end.
Definition v_string (v : nvalue) : option str := match v with NString s => Some s | _ => None end.
Definition v_bool (v : nvalue) : option bool := match v with NBool b => Some b | _ => None end.
Definition v_uint (v : nvalue) : option N := match v with NUint u => Some u | _ => None end.
Definition v_slist (v : nvalue) : option (list str) := match v with NSlist l => Some l | _ => None end.
Definition dflt {A} (o : option A) (d : A) : A := match o with Some v => v | None => d end.
(** mod.rs:279-304 [to_list]. *)
Definition to_list (v : nvalue) : list nvalue :=
  match v with
  | NMmap m => map (fun kv => NEntry (fst kv) (NSlist (snd kv))) m
  | NSlist l => map NString l
  | NJson (JArr l) => map NJson l
  | NList l => l
  | v => [v]
  end.
Definition show_bool (b : bool) : str := if b then S_ "true" else S_ "false".

(** The state of the interpreter is its value stack (interpreter.rs:26-32); [Fails] is an
    [anyhow] error, [Fuel] means that the bound on the recursion was reached. *)
Definition stack := list (option nresult).
Inductive run (A : Type) := Fuel | Panics | Fails (st : stack) (m : str) | Runs (st : stack) (a : A).
Arguments Fuel {A}. Arguments Panics {A}. Arguments Fails {A} _ _. Arguments Runs {A} _ _.
Definition then_ {A B} (r : run A) (f : stack -> A -> run B) : run B :=
  match r with Fuel => Fuel | Panics => Panics | Fails st m => Fails st m | Runs st a => f st a end.
(** [match .. { Ok(..) => .., Err(err) => .. }]. *)
Definition catch_ {A B} (r : run A) (f : stack -> A -> run B) (g : stack -> str -> run B) : run B :=
  match r with Fuel => Fuel | Panics => Panics | Fails st m => g st m | Runs st a => f st a end.
(** interpreter.rs:1467-1486 [update_result], [pop_result], [stack_value]. *)
Definition update_top (st : stack) (r : option nresult) : stack := match st with [] => [r] | _ :: s => r :: s end.
Definition top (st : stack) : option nresult := match st with Some r :: _ => Some r | _ => None end.

(** More functions of external crates, arbitrary in every theorem. *)
Record engine_texts := mkTexts {
  quote_text : str -> str;     (* NodeValue::escape_string (mod.rs:175-182; the snailquote crate) *)
  debug_text : nvalue -> str;  (* Debug forms, format!("{:?}", ..) *)
  lossy_text : list N -> str   (* String::from_utf8_lossy of bytes that are not UTF-8 *)
}.

Section Engine.
Variable w : world.
Variable x : externals.
Variable ee : engine_texts.
Notation quote := (quote_text ee).
Notation debug := (debug_text ee).

(** mod.rs:97-173 [str_form], also the [Display] form. *)
Definition entry_text (kv : str * list str) : str :=
  quote (fst kv) ++ S_ ": " ++
  match snd kv with
  | [] => S_ "[]"
  | [v] => quote v
  | vs => S_ "[" ++ join_with (S_ ", ") (map quote vs) ++ S_ "]"
  end.
Fixpoint key_insert {A} (kv : str * A) (m : list (str * A)) : list (str * A) :=
  match m with
  | [] => [kv]
  | kv' :: m' => match str_compare (fst kv) (fst kv') with Lt => kv :: m | _ => kv' :: key_insert kv m' end
  end.
Definition by_key {A} (m : list (str * A)) : list (str * A) := fold_left (fun acc kv => key_insert kv acc) m [].
Fixpoint str_form (v : nvalue) : str :=
  match v with
  | NNull => S_ "NULL"
  | NString s => quote s
  | NBool b => S_ "BOOL(" ++ show_bool b ++ S_ ")"
  | NMmap m => S_ "{" ++ join_with (S_ ", ") (map entry_text (by_key m)) ++ S_ "}"
  | NSlist l => S_ "[" ++ join_with (S_ ", ") (map quote l) ++ S_ "]"
  | NBytes b => S_ "BYTES(" ++ show_N (len b) ++ S_ ", " ++ b64_encode b ++ S_ ")"
  | NNamespaced n s => n ++ S_ ":" ++ s
  | NUint i => S_ "UINT(" ++ show_N i ++ S_ ")"
  | NJson j => S_ "json:" ++ json_show w j
  | NEntry k v => quote k ++ S_ " -> " ++ str_form v
  | NList l => S_ "[" ++ join_with (S_ ", ") (map str_form l) ++ S_ "]"
  end.
(** mod.rs:473-493 [NodeResult::as_string]. *)
Definition as_string (r : nresult) : option str :=
  match r with
  | NVal v =>
      Some (match v with
            | NNull => []
            | NString s => s
            | NBool b => show_bool b
            | NMmap _ | NSlist _ | NList _ => debug v
            | NBytes b => b64_encode b
            | NNamespaced n s => n ++ S_ ":" ++ s
            | NUint u => show_N u
            | NJson j => json_show w j
            | NEntry k v' => k ++ S_ " -> " ++ str_form v'
            end)
  | _ => None
  end.

(** mod.rs:382-430 [Matches<NodeValue> for NodeValue], true for [Ok]. *)
Definition value_matches (e a : nvalue) (r : rule) : bool :=
  match e with
  | NNull => json_matches w JNull (dflt (v_json a) JNull) r false
  | NString s =>
      match a with
      | NString t => str_matches w s t r false
      | NSlist l => forallb (fun t => str_matches w s t r false) l
      | _ => str_matches w s (str_form a) r false
      end
  | NBool b => bool_matches w b (dflt (v_bool a) false) r false
  | NUint u => u64_matches w u (dflt (v_uint a) 0) r false
  | NJson j => json_matches w j (dflt (v_json a) JNull) r false
  | NSlist l =>
      list_matches str_eqb l (match a with NSlist l' => l' | NString t => [t] | _ => [str_form a] end) r false
  | _ => false
  end.

(** pact_models/src/matchingrules/mod.rs:335-344 [MatchingRule::create]. *)
Definition create_rule (name : str) (attrs : json) : outcome rule rule_error :=
  match attrs with
  | JObj m => rule_create w (rj_for w attrs) name m
  | JNull => rule_create w (rj_for w attrs) name []
  | _ => Err NotAnObject
  end.

(** * Resolving values *)
(** pact_models/src/http_parts.rs:61-74 [content_type]. *)
Definition content_type_of (p : part) : option content_type :=
  match body_content_type (part_body p) with
  | Some ct => Some ct
  | None =>
      match lookup_header_value w (part_headers p) (S_ "content-type") with
      | Some h => match parse_mime x h with Some v => Some v | None => detect_content_type x (part_body p) end
      | None => detect_content_type x (part_body p)
      end
  end.
Definition one_or_list (l : list str) : nvalue := match l with [v] => NString v | _ => NSlist l end.
(** value_resolvers.rs:60-66: the headers under their lower case names. *)
Definition lower_headers (h : option hmap) : hmap :=
  fold_left (fun m kv => sm_insert (to_lower w (fst kv)) (snd kv) m) (dflt h []) [].
Definition query_values (q : option query_map) : list (str * list str) :=
  map (fun kv => (fst kv, plain_values (snd kv))) (dflt q []).
(** value_resolvers.rs:25-104 [HttpRequestValueResolver::resolve]. *)
Definition not_valid : str := S_ "is not valid for a HTTP request".
Definition resolve (r : request) (p : docpath) : outcome nvalue str :=
  let n := length (path_tokens p) in
  let whole := Nat.eqb n 2 || (Nat.eqb n 3 && is_wildcard p) in
  match first_field p with
  | None => Err not_valid
  | Some f =>
      if str_eqb f (S_ "method") then Ok (NString (req_method r))
      else if str_eqb f (S_ "path") then Ok (NString (req_path r))
      else if str_eqb f (S_ "query") then
        let qp := query_values (req_query r) in
        if whole then Ok (NMmap qp)
        else if Nat.eqb n 3 then
          Ok (match obj_get (dflt (last_field p) []) qp with Some vs => one_or_list vs | None => NNull end)
        else Err not_valid
      else if str_eqb f (S_ "headers") then
        let hs := lower_headers (req_headers r) in
        let name := to_lower w (dflt (last_field p) []) in
        if whole then Ok (NMmap hs)
        else if Nat.eqb n 3 then Ok (match obj_get name hs with Some vs => one_or_list vs | None => NNull end)
        else match path_last p with
             | Some (TIndex i) =>
                 if Nat.eqb n 4 then
                   match obj_get name hs with
                   | Some vs => match nth_error vs (N.to_nat i) with Some v => Ok (NString v) | None => Panic end
                   | None => Ok NNull
                   end
                 else Err not_valid
             | _ => Err not_valid
             end
      else if str_eqb f (S_ "content-type") then
        Ok (match content_type_of (req_part r) with Some ct => NString (ct_show ct) | None => NNull end)
      else if str_eqb f (S_ "body") && Nat.eqb n 2 then
        Ok (match req_body r with BPresent b _ _ => NBytes b | _ => NNull end)
      else Err not_valid
  end.

(** pact_models/src/json_utils.rs:253-316 [query_object_graph]: the texts of the steps of every
    branch of the tree that is built, one list per leaf. A step that is neither a name, an
    index nor a wildcard, and an index beyond the end of an array, add nothing. *)
Fixpoint graph (ts : list token) (j : json) : list (list str) :=
  match ts with
  | [] => [[]]
  | TField name :: ts' =>
      match j with
      | JObj m => match obj_get name m with Some v => map (cons name) (graph ts' v) | None => [[]] end
      | _ => [[]]
      end
  | TIndex i :: ts' =>
      match j with
      | JArr l => match nth_error l (N.to_nat i) with
                  | Some v => map (cons (show_N i)) (graph ts' v)
                  | None => graph ts' j
                  end
      | _ => [[]]
      end
  | TStar :: ts' =>
      match j with
      | JObj [] => [[]]
      | JObj m => flat_map (fun kv => map (cons (fst kv)) (graph ts' (snd kv))) m
      | _ => [[]]
      end
  | TStarIndex :: ts' =>
      match j with
      | JArr [] => [[]]
      | JArr l => (fix each (i : nat) (l : list json) : list (list str) :=
                     match l with
                     | [] => []
                     | v :: l' => map (cons (show_N (N.of_nat i))) (graph ts' v) ++ each (S i) l'
                     end) O l
      | _ => [[]]
      end
  | TRoot :: ts' => graph ts' j
  end.
(** json_utils.rs:236-251 [resolve_path]: the leaves that are not empty and as long as the
    expression (the root counts), joined with slashes. *)
Definition resolve_paths (j : json) (p : docpath) : list str :=
  flat_map (fun steps =>
    if nonempty (last steps []) && Nat.eqb (S (length steps)) (length (path_tokens p))
    then [join_with (S_ "/") ([] :: steps)] else []) (graph (path_tokens p) j).
(** serde_json [Value::pointer]. *)
Fixpoint unescape_pointer (s : str) : str := (* replace("~1", "/").replace("~0", "~") *)
  match s with
  | [] => []
  | c :: s' =>
      if c =? 126 then
        match s' with
        | d :: s'' => if d =? 49 then 47 :: unescape_pointer s''
                      else if d =? 48 then 126 :: unescape_pointer s'' else c :: unescape_pointer s'
        | [] => [c]
        end
      else c :: unescape_pointer s'
  end.
Definition pointer_index (s : str) : option N := (* serde_json parse_index *)
  match s with
  | c :: d :: _ => if (c =? 43) || (c =? 48) then None else parse_usize s
  | [c] => if c =? 43 then None else parse_usize s
  | [] => None
  end.
Definition pointer_step (o : option json) (t : str) : option json :=
  match o with
  | Some (JObj m) => obj_get t m
  | Some (JArr l) => match pointer_index t with Some i => nth_error l (N.to_nat i) | None => None end
  | _ => None
  end.
Definition pointer (j : json) (p : str) : option json :=
  match p with
  | [] => Some j
  | _ => match split_on 47 p with
         | [] :: steps => fold_left pointer_step (map unescape_pointer steps) (Some j)
         | _ => None
         end
  end.
(** interpreter.rs:2093-2159 [resolve_stack_value], for values that are not XML. *)
Definition resolve_stack (st : stack) (p : docpath) : nvalue + str :=
  match top st with
  | Some (NVal (NJson j)) =>
      if is_root p then inl (NJson j)
      else inl (match resolve_paths j p with
                | [] => NNull
                | [q] => match pointer j q with Some v => NJson v | None => NNull end
                | qs => NJson (JArr (map (fun q => dflt (pointer j q) JNull) qs))
                end)
  | _ => inr (S_ "Can not resolve")
  end.

(** * The interpreter *)
(** interpreter.rs:2231-2279 [json_check_length], [json_check_type]: true for [Ok]. *)
Definition check_length (n : N) (j : json) : bool :=
  match j with JArr l => len l =? n | JObj m => len m =? n | _ => true end.
Definition check_type (t : str) (j : json) : bool :=
  match j with
  | JNull => str_eqb t (S_ "NULL")
  | JBool _ => str_eqb t (S_ "BOOL")
  | JNum _ => str_eqb t (S_ "NUMBER")
  | JStr _ => str_eqb t (S_ "STRING")
  | JArr _ => str_eqb t (S_ "ARRAY")
  | JObj _ => str_eqb t (S_ "OBJECT")
  end.
Definition json_is_empty (j : json) : bool :=
  match j with JNull => true | JStr s => is_nil s | JArr l => is_nil l | JObj m => is_nil m | _ => false end.
(** interpreter.rs:1064-1136: the values [expect:empty] finds empty; [Some b] is the value [b], [None] an error. *)
Definition value_is_empty (v : nvalue) : option bool :=
  let check (b : bool) := if b then Some true else None in
  match v with
  | NNull => Some true
  | NString s => check (is_nil s)
  | NBool b => Some b
  | NMmap m => check (is_nil m)
  | NSlist l => check (is_nil l)
  | NBytes b => check (is_nil b)
  | NNamespaced _ _ => None  (* todo!(), not reached: a namespaced value is resolved when it is read *)
  | NUint u => check (u =? 0)
  | NJson j => check (json_is_empty j)
  | NEntry _ _ => Some false
  | NList l => check (is_nil l)
  end.
(** interpreter.rs:1930-1955 [check_diff] on sets: the entries of [a] that are not in [b], without repetition. *)
Fixpoint distinct (l : list str) : list str :=
  match l with [] => [] | k :: l' => if str_in k l' then distinct l' else k :: distinct l' end.
Definition missing_in (a b : list str) : list str := filter (fun k => negb (str_in k b)) (distinct a).
(** interpreter.rs:1734-1773: the entries of the value, [None] when it has none. *)
Definition entries_of (v : nvalue) : option (list str) :=
  match v with
  | NMmap m => Some (map fst m)
  | NSlist l => Some l
  | NString s => Some [s]
  | NJson (JObj m) => Some (map fst m)
  | NJson (JArr l) => Some (map (json_show w) l)
  | _ => None
  end.
(** interpreter.rs:1852-1899: what [expect:count] counts (bytes of a string). *)
Definition count_of (v : nvalue) : option N :=
  match v with
  | NMmap m => Some (len m)
  | NSlist l => Some (len l)
  | NString s => Some (len (utf8 s))
  | NList l => Some (len l)
  | NJson (JObj m) => Some (len m)
  | NJson (JArr l) => Some (len l)
  | _ => None
  end.
(** interpreter.rs:1382-1409: [length]. *)
Definition length_of (v : nvalue) : option N :=
  match v with
  | NNull => Some 0
  | NString s => Some (len (utf8 s))
  | NMmap m => Some (len m)
  | NSlist l => Some (len l)
  | NBytes l => Some (len l)
  | NJson (JStr s) => Some (len (utf8 s))
  | NJson (JArr l) => Some (len l)
  | NJson (JObj m) => Some (len m)
  | NList l => Some (len l)
  | _ => None
  end.
(** interpreter.rs:1281-1302: changing the case of a value. *)
Definition recase (f : str -> str) (v : nvalue) : nvalue :=
  match v with
  | NString s => NString (f s)
  | NSlist l => NSlist (map f l)
  | NJson (JStr s) => NString (f s)
  | NJson j => NString (json_show w j)
  | v => v
  end.
(** interpreter.rs:1330-1348 [to-string]. *)
Definition stringify (v : nvalue) : nvalue :=
  match v with
  | NNull => NString []
  | NString _ | NSlist _ => v
  | NJson (JStr s) => NString s
  | NJson j => NString (json_show w j)
  | v => NString (str_form v)
  end.
(** interpreter.rs:1587-1597, 1637-1647: the texts [join] and [error] use. *)
Definition texts (v : nvalue) : list str :=
  match v with
  | NString s => [s]
  | NBool b => [show_bool b]
  | NMmap _ | NBytes _ | NNamespaced _ _ => [str_form v]
  | NSlist l => l
  | NUint u => [show_N u]
  | NJson j => [json_show w j]
  | _ => []
  end.
Definition one_or_values (l : list nvalue) : nvalue := match l with [v] => v | _ => NList l end.
(** interpreter.rs:1958-2009 [header:parse]. *)
Definition parsed_header (s : str) : json :=
  let (v, ps) := first_and_rest (strip_parts w s) in
  JObj (obj_of_list [(S_ "value", JStr v);
                 (S_ "parameters", JObj (obj_of_list (map (fun kv => (fst kv, JStr (snd kv))) (parse_parameters w ps))))]).
(** interpreter.rs:2192-2201 [inject_index_in_path]; 2161-2190 [inject_index]. *)
Fixpoint inject_token (i : N) (ts : list token) : list token :=
  match ts with
  | [] => []
  | TStarIndex :: ts' => TIndex i :: ts'
  | t :: ts' => t :: inject_token i ts'
  end.
Definition inject_path (i : N) (p : docpath) : docpath := from_tokens (inject_token i (path_tokens p)).
Fixpoint inject_index (i : N) (n : pnode) : pnode :=
  match n with
  | PN t r ch =>
      match t with
      | PContainer l =>
          PN (PContainer (match path_new (uni_alpha w) (uni_numeric w) l with
                          | Ok p => path_expr (inject_path i p)
                          | _ => l
                          end)) r (map (inject_index i) ch)
      | PAction _ | PPipeline | PSplat => PN t r (map (inject_index i) ch)
      | PResolveCurrent p => PN (PResolveCurrent (inject_path i p)) r []
      | _ => n
      end
  end.

Variable actual : request.

Section Walk.
Variable walk : stack -> pnode -> run pnode.
Variable fuel : nat.

(** The loops over a queue of nodes (interpreter.rs:68-81, 146-157, 1664-1706): the children of a
    splat node are put at the front of the queue. *)
Fixpoint queue_container (g : nat) (st : stack) (q : list pnode) (status : nresult) (done : list pnode) : run (nresult * list pnode) :=
  match q with
  | [] => Runs st (status, done)
  | c :: q' =>
      match g with
      | O => Fuel
      | S g' => then_ (walk st c) (fun st' c' =>
          queue_container g' st' (if is_splat c' then pn_children c' ++ q' else q')
            (and_r status (pn_result c')) (done ++ [c']))
      end
  end.
Fixpoint queue_pipeline (g : nat) (st : stack) (q done : list pnode) : run (list pnode) :=
  match q with
  | [] => Runs st done
  | c :: q' =>
      match g with
      | O => Fuel
      | S g' => then_ (walk st c) (fun st' c' =>
          queue_pipeline g' (update_top st' (pn_result c')) (if is_splat c' then pn_children c' ++ q' else q') (done ++ [c']))
      end
  end.
(** [evaluate_children]; [inr] is the error of a child with the children walked so far. *)
Fixpoint evaluate (g : nat) (st : stack) (q done : list pnode) (vs : list nvalue)
  : run (list pnode * list nvalue + str * list pnode) :=
  match q with
  | [] => Runs st (inl (done, vs))
  | c :: q' =>
      match g with
      | O => Fuel
      | S g' =>
          let next st (r : nresult) q done :=
            match r with
            | NOk => evaluate g' st q done vs
            | NVal v => evaluate g' st q done (vs ++ [v])
            | NErr e => Runs st (inr (e, done))
            end in
          match pn_result c with
          | Some r => next st r q' done
          | None =>
              catch_ (walk st c)
                (fun st' c' => if is_splat c' then next st' NOk (pn_children c' ++ q') (done ++ [c'])
                               else next st' (pn_value c') q' (done ++ [c']))
                (fun st' m => Runs st' (inr (m, done)))
          end
      end
  end.
(** Walking a list of children in order (interpreter.rs:1538-1552, and the argument checks). *)
Fixpoint walk_all (st : stack) (l : list pnode) : run (list pnode) :=
  match l with
  | [] => Runs st []
  | c :: l' => then_ (walk st c) (fun st' c' => then_ (walk_all st' l') (fun st'' cs => Runs st'' (c' :: cs)))
  end.
(** interpreter.rs:1535-1556 [validate_args], and 1488-1533 with no optional arguments. *)
Definition validate_args (required optional : nat) (st : stack) (ch : list pnode) : run (list pnode * list pnode) :=
  if Nat.ltb (length ch) required || Nat.ltb (required + optional) (length ch)
  then Fails st (S_ "wrong number of arguments")
  else then_ (walk_all st (firstn required ch)) (fun st' args => Runs st' (args, skipn required ch)).

Definition node_of := PN.
(** A failed check: the message of the optional last argument (interpreter.rs:1147-1183, 1780-1815,
    1902-1932), walked on the stack [st]. *)
Definition custom_error (t : ntype) (st : stack) (args optional : list pnode) (m : str) : run pnode :=
  match optional with
  | o :: _ =>
      catch_ (walk st o)
        (fun st' o' => Runs st' (PN t (Some (NErr (dflt (as_string (pn_value o')) []))) (args ++ [o'])))
        (fun st' _ => Runs st' (PN t (Some (NErr m)) (args ++ optional)))
  | [] => Runs st (PN t (Some (NErr m)) args)
  end.

(** interpreter.rs:1193-1275 [execute_match]; a failed match leaves the error it pushed on the stack. *)
Definition execute_match (matcher : str) (t : ntype) (st : stack) (ch : list pnode) : run pnode :=
  catch_ (validate_args 3 1 st ch)
    (fun st' args_opt =>
       let (args, opt) := args_opt in
       match args with
       | [a1; a2; a3] =>
           let err e := Runs st' (PN t (Some (NErr e)) (args ++ opt)) in
           match value_or_error (pn_value a1) with
           | inr e => err e
           | inl expected =>
           match value_or_error (pn_value a2) with
           | inr e => err e
           | inl act =>
           match value_or_error (pn_value a3) with
           | inr e => err e
           | inl params =>
               match create_rule matcher (dflt (v_json params) JNull) with
               | Ok r =>
                   if value_matches expected act r then Runs st' (PN t (Some (NVal (NBool true))) (args ++ opt))
                   else
                     let m := S_ "Expected" in
                     match opt with
                     | o :: _ => custom_error t (Some (NErr m) :: st') args opt m
                     | [] => err m
                     end
               | Err _ => Runs st' (PN t (Some (NErr (S_ "is not a valid matching rule type"))) ch)
               | Panic => Panics
               end
           end end end
       | _ => Panics
       end)
    (fun st' m => Runs st' (PN t (Some (NErr m)) ch)).

(** interpreter.rs:883-973 [execute_if]. *)
Definition execute_if (t : ntype) (st : stack) (ch : list pnode) : run pnode :=
  match ch with
  | [] => Runs st (PN t (Some (NErr (S_ "'if' action requires at least one argument"))) ch)
  | c :: rest =>
      catch_ (walk st c)
        (fun st1 first =>
           let r := pn_value first in
           if negb (is_truthy r) then
             match rest with
             | yes :: no :: more =>
                 catch_ (walk st1 no)
                   (fun st2 no' => Runs st2 (PN t (pn_result no') (first :: yes :: no' :: more)))
                   (fun st2 m => Runs st2 (PN t (Some (NErr m)) (first :: rest)))
             | _ => Runs st1 (PN t (Some (NVal (NBool false))) (first :: rest))
             end
           else
             match rest with
             | yes :: more =>
                 catch_ (walk st1 yes)
                   (fun st2 second => Runs st2 (PN t (Some (truthy (pn_value second))) (first :: second :: more)))
                   (fun st2 m => Runs st2 (PN t (Some (NVal (NBool false))) (first :: rest)))
             | [] => Runs st1 (PN t (Some r) [first])
             end)
        (fun st1 m => Runs st1 (PN t (Some (NErr m)) ch))
  end.

(** The loop of [tee] over the other children (interpreter.rs:993-1004). *)
Fixpoint walk_and (st : stack) (l : list pnode) (r : nresult) (done : list pnode) : run (nresult * list pnode) :=
  match l with
  | [] => Runs st (r, done)
  | c :: l' =>
      catch_ (walk st c)
        (fun st' c' => walk_and st' l' (and_r r (pn_result c')) (done ++ [c']))
        (fun st' m => walk_and st' l' (and_r r (Some (NErr m))) (done ++ [with_result c (NErr m)]))
  end.
(** interpreter.rs:975-1020 [execute_tee]. *)
Definition execute_tee (t : ntype) (st : stack) (ch : list pnode) : run pnode :=
  match ch with
  | [] => Runs st (PN t (Some NOk) ch)
  | c :: rest =>
      catch_ (walk st c)
        (fun st1 first =>
           let r := pn_value first in
           if is_err r then Runs st1 (PN t (Some r) (first :: rest))
           else then_ (walk_and (pn_result first :: st1) rest NOk [first]) (fun st2 res =>
                  Runs (tl st2) (PN t (Some (truthy (fst res))) (snd res))))
        (fun st1 m => Runs st1 (PN t (Some (NErr m)) ch))
  end.
(** interpreter.rs:2011-2090 [execute_for_each]. *)
Definition execute_for_each (t : ntype) (st : stack) (ch : list pnode) : run pnode :=
  match ch with
  | [] => Runs st (PN t (Some NOk) ch)
  | c :: rest =>
      catch_ (walk st c)
        (fun st1 first =>
           let r := pn_value first in
           if is_err r then Runs st1 (PN t (Some r) (first :: rest))
           else
             let items := to_list (value_or_null r) in
             let bodies := flat_map (fun i => map (inject_index (N.of_nat i)) rest) (seq 0 (length items)) in
             then_ (walk_and st1 bodies NOk [first]) (fun st2 res =>
               Runs st2 (PN t (Some (truthy (fst res))) (snd res))))
        (fun st1 m => Runs st1 (PN t (Some (NErr m)) ch))
  end.

(** One argument (interpreter.rs:1488-1502 [validate_one_arg]) and the result made from it. *)
Definition with_one (t : ntype) (st : stack) (ch : list pnode) (f : pnode -> nresult) : run pnode :=
  catch_ (validate_args 1 0 st ch)
    (fun st' args_opt => match fst args_opt with
       | [a] => Runs st' (PN t (Some (f a)) [a])
       | _ => Panics
       end)
    (fun st' m => Runs st' (PN t (Some (NErr m)) ch)).
(** Several arguments (1504-1533) and the result made from them. *)
Definition with_args (n : nat) (t : ntype) (st : stack) (ch : list pnode) (f : list nresult -> nresult) : run pnode :=
  catch_ (validate_args n 0 st ch)
    (fun st' args_opt => Runs st' (PN t (Some (f (map pn_value (fst args_opt)))) (fst args_opt)))
    (fun st' m => Runs st' (PN t (Some (NErr m)) ch)).
(** The actions on the values of all children ([evaluate_children]). *)
Definition with_values (t : ntype) (st : stack) (ch : list pnode) (f : list nvalue -> nresult) : run pnode :=
  then_ (evaluate fuel st ch [] []) (fun st' res =>
    match res with
    | inl (done, vs) => Runs st' (PN t (Some (f vs)) done)
    | inr (e, done) => Runs st' (PN t (Some (NErr e)) done)
    end).

Definition truth : nresult := NVal (NBool true).
(** interpreter.rs:582-629 [json:parse]; 1022-1059 [convert:UTF8]. *)
Definition parse_json_value (r : nresult) : nresult :=
  match as_value r with
  | None | Some NNull => NVal NNull
  | Some (NString s) => match json_of_bytes x (utf8 s) with Some j => NVal (NJson j) | None => NErr (S_ "json parse error") end
  | Some (NBytes b) => match json_of_bytes x b with Some j => NVal (NJson j) | None => NErr (S_ "json parse error") end
  | Some _ => NErr (S_ "json:parse can not be used")
  end.
Definition utf8_lossy (b : list N) : str := match from_utf8 b with Some s => s | None => lossy_text ee b end.
Definition convert_utf8 (r : nresult) : nresult :=
  match as_value r with
  | None | Some NNull => NVal (NString [])
  | Some (NString s) => NVal (NString s)
  | Some (NBytes b) => NVal (NString (utf8_lossy b))
  | Some _ => NErr (S_ "convert:UTF8 can not be used")
  end.
(** interpreter.rs:1423-1455 [check:exists]. *)
Definition exists_value (r : nresult) : nresult :=
  match r with NVal NNull => NVal (NBool false) | NVal _ => truth | _ => NVal (NBool false) end.
(** interpreter.rs:503-580 [json:expect:empty]; 406-501 [json:match:length]; 304-404 [json:expect:entries]. *)
Definition json_arg (r : nresult) : option json := match r with NVal (NJson j) => Some j | _ => None end.
Definition json_expect_empty (rs : list nresult) : nresult :=
  match rs with
  | [t; v] =>
      match as_string t, json_arg v with
      | Some t, Some j => if check_type t j then if json_is_empty j then truth else NErr (S_ "Expected JSON to be empty")
                          else NErr (S_ "Was expecting a JSON type")
      | _, _ => NErr (S_ "Was expecting a JSON value")
      end
  | _ => NErr []
  end.
Definition json_match_length (rs : list nresult) : nresult :=
  match rs with
  | [t; n; v] =>
      match as_string t, n, json_arg v with
      | Some t, NVal (NUint n), Some j =>
          if check_type t j then if check_length n j then truth else NErr (S_ "Was expecting a length")
          else NErr (S_ "Was expecting a JSON type")
      | _, _, _ => NErr (S_ "Was expecting a JSON value")
      end
  | _ => NErr []
  end.
Definition json_expect_entries (rs : list nresult) : nresult :=
  match rs with
  | [t; ks; v] =>
      match as_string t, ks, json_arg v with
      | Some t, NVal (NSlist keys), Some j =>
          if check_type t j then
            match j with
            | JObj m => if is_nil (missing_in keys (map fst m)) then truth
                        else NErr (S_ "The following expected entries were missing from the actual Object: ")
            | _ => NErr (S_ "Was expecting a JSON Object")
            end
          else NErr (S_ "Was expecting a JSON type")
      | _, _, _ => NErr (S_ "Was expecting a JSON value")
      end
  | _ => NErr []
  end.
(** interpreter.rs:1717-1830 [execute_check_entries]. *)
Definition check_entries (only : bool) (t : ntype) (st : stack) (ch : list pnode) : run pnode :=
  catch_ (validate_args 2 1 st ch)
    (fun st' args_opt =>
       let (args, opt) := args_opt in
       match args with
       | [a1; a2] =>
           let expected := dflt (v_slist (value_or_null (pn_value a1))) [] in
           match entries_of (value_or_null (pn_value a2)) with
           | Some keys =>
               let diff := if only then missing_in keys expected else missing_in expected keys in
               if is_nil diff then Runs st' (PN t (Some NOk) (args ++ opt))
               else
                 let m := S_ "The following entries" in
                 match opt with
                 | o :: _ => then_ (custom_error t (Some (NVal (NSlist diff)) :: st') args opt m) (fun st'' n => Runs (tl st'') n)
                 | [] => Runs st' (PN t (Some (NErr m)) args)
                 end
           | None => Runs st' (PN t (Some (NErr (S_ "can't be used with this node"))) (args ++ opt))
           end
       | _ => Panics
       end)
    (fun st' m => Runs st' (PN t (Some (NErr m)) ch)).
(** interpreter.rs:1832-1945 [execute_expect_count]. *)
Definition expect_count (t : ntype) (st : stack) (ch : list pnode) : run pnode :=
  catch_ (validate_args 2 1 st ch)
    (fun st' args_opt =>
       let (args, opt) := args_opt in
       match args with
       | [a1; a2] =>
           let expected := dflt (v_uint (value_or_null (pn_value a1))) 0 in
           match count_of (value_or_null (pn_value a2)) with
           | Some n => if n =? expected then Runs st' (PN t (Some NOk) (args ++ opt))
                       else custom_error t st' args opt (S_ "Expected items")
           | None => custom_error t st' args opt (S_ "can't be used with this node")
           end
       | _ => Panics
       end)
    (fun st' m => Runs st' (PN t (Some (NErr m)) ch)).
(** interpreter.rs:1050-1191 [execute_expect_empty]. *)
Definition expect_empty (t : ntype) (st : stack) (ch : list pnode) : run pnode :=
  catch_ (validate_args 1 1 st ch)
    (fun st' args_opt =>
       let (args, opt) := args_opt in
       match args with
       | [a] =>
           match pn_value a with
           | NErr e => Runs st' (PN t (Some (NErr e)) (args ++ opt))
           | r => match value_is_empty (value_or_null r) with
                  | Some b => Runs st' (PN t (Some (NVal (NBool b))) (args ++ opt))
                  | None => custom_error t st' args opt (S_ "Expected to be empty")
                  end
           end
       | _ => Panics
       end)
    (fun st' m => Runs st' (PN t (Some (NErr m)) ch)).
(** interpreter.rs:1565-1658 [execute_join], [execute_error]. *)
Definition joined (with_ : bool) (vs : list nvalue) : str :=
  match flat_map texts vs with
  | sep :: l => if with_ then join_with sep l else concat (sep :: l)
  | [] => []
  end.
(** interpreter.rs:832-881 [push], [pop], [apply]. *)
Definition execute_push (t : ntype) (st : stack) (ch : list pnode) : run pnode :=
  match st with
  | v :: _ => Runs (v :: st) (PN t v ch)
  | [] => Runs st (PN t (Some (NErr (S_ "No value to push (value is empty)"))) ch)
  end.
Definition execute_pop (t : ntype) (st : stack) (ch : list pnode) : run pnode :=
  match st with
  | _ :: st' => Runs st' (PN t (top st') ch)
  | [] => Runs st (PN t (Some (NErr (S_ "No value to pop (stack is empty)"))) ch)
  end.
Definition execute_apply (t : ntype) (st : stack) (ch : list pnode) : run pnode :=
  match st with
  | v :: _ => Runs st (PN t v ch)
  | [] => Runs st (PN t (Some (NErr (S_ "No value to apply (stack is empty)"))) ch)
  end.

(** interpreter.rs:231-302 [execute_action]; the xml: actions are not modelled (an error here). *)
Definition execute_action (a : str) (st : stack) (r : option nresult) (ch : list pnode) : run pnode :=
  let t := PAction a in
  let is s := str_eqb a (S_ s) in
  if starts_with (S_ "match:") a then execute_match (skipn 6 a) t st ch
  else if is "upper-case"%string then with_values t st ch (fun vs => NVal (one_or_values (map (recase (to_upper w)) vs)))
  else if is "lower-case"%string then with_values t st ch (fun vs => NVal (one_or_values (map (recase (to_lower w)) vs)))
  else if is "to-string"%string then with_values t st ch (fun vs => NVal (one_or_values (map stringify vs)))
  else if is "length"%string then
    with_one t st ch (fun a => match length_of (value_or_null (pn_value a)) with
                               | Some n => NVal (NUint n) | None => NErr (S_ "'length' can't be used") end)
  else if is "expect:empty"%string then expect_empty t st ch
  else if is "convert:UTF8"%string then with_one t st ch (fun a => convert_utf8 (pn_value a))
  else if is "if"%string then execute_if t st ch
  else if is "and"%string then with_values t st ch (fun vs => NVal (fold_left and_v vs NNull))
  else if is "or"%string then with_values t st ch (fun vs => NVal (fold_left or_v vs NNull))
  else if is "tee"%string then execute_tee t st ch
  else if is "apply"%string then execute_apply t st ch
  else if is "push"%string then execute_push t st ch
  else if is "pop"%string then execute_pop t st ch
  else if is "json:parse"%string then with_one t st ch (fun a => parse_json_value (pn_value a))
  else if is "json:expect:empty"%string then with_args 2 t st ch json_expect_empty
  else if is "json:match:length"%string then with_args 3 t st ch json_match_length
  else if is "json:expect:entries"%string then with_args 3 t st ch json_expect_entries
  else if is "check:exists"%string then with_one t st ch (fun a => exists_value (pn_value a))
  else if is "expect:entries"%string then check_entries false t st ch
  else if is "expect:only-entries"%string then check_entries true t st ch
  else if is "expect:count"%string then expect_count t st ch
  else if is "join"%string then with_values t st ch (fun vs => NVal (NString (joined false vs)))
  else if is "join-with"%string then with_values t st ch (fun vs => NVal (NString (joined true vs)))
  else if is "error"%string then with_values t st ch (fun vs => NErr (joined false vs))
  else if is "header:parse"%string then
    with_one t st ch (fun a => NVal (NJson (parsed_header (dflt (as_string (pn_value a)) []))))
  else if is "for-each"%string then execute_for_each t st ch
  else Runs st (PN t (Some (NErr (S_ "is not a valid action"))) ch).

(** interpreter.rs:190-226: the children of a splat node, one per entry of a map or list. *)
Definition splatted (n : pnode) : list pnode :=
  match pn_result n with
  | Some (NVal (NMmap m)) => map (fun kv => with_value n (NEntry (fst kv) (NSlist (snd kv)))) m
  | Some (NVal (NSlist l)) => map (fun s => with_value n (NString s)) l
  | _ => [n]
  end.
(** interpreter.rs:94-105: the value of a value node. *)
Definition read_value (v : nvalue) : nvalue + str :=
  match v with
  | NNamespaced ns s =>
      if str_eqb ns (S_ "json") then match json_of_bytes x (utf8 s) with Some j => inl (NJson j) | None => inr (S_ "invalid JSON") end
      else inr (S_ "is not a known namespace")
  | v => inl v
  end.
(** interpreter.rs:52-228 [walk_tree], one level. *)
Definition walk_node (st : stack) (n : pnode) : run pnode :=
  match n with
  | PN t r ch =>
      match t with
      | PEmpty | PAnnotation _ => Runs st n
      | PContainer l =>
          then_ (queue_container fuel st ch NOk []) (fun st' res => Runs st' (PN t (Some (truthy (fst res))) (snd res)))
      | PAction a => execute_action a st r ch
      | PValue v => match read_value v with
                    | inl v' => Runs st (PN t (Some (NVal v')) [])
                    | inr m => Fails st m
                    end
      | PResolve p => match resolve actual p with
                      | Ok v => Runs st (PN t (Some (NVal v)) [])
                      | Err e => Runs st (PN t (Some (NErr e)) [])
                      | Panic => Panics
                      end
      | PPipeline =>
          then_ (queue_pipeline fuel (None :: st) ch []) (fun st' done =>
            Runs (tl st') (PN t (Some (match top st' with Some v => v | None => NErr (S_ "Value from stack is empty") end)) done))
      | PResolveCurrent p => match resolve_stack st p with
                             | inl v => Runs st (PN t (Some (NVal v)) [])
                             | inr e => Runs st (PN t (Some (NErr e)) [])
                             end
      | PSplat => then_ (walk_all st ch) (fun st' cs => Runs st' (PN t (Some NOk) (flat_map splatted cs)))
      end
  end.
End Walk.

Fixpoint walk (fuel : nat) (st : stack) (n : pnode) : run pnode :=
  match fuel with
  | O => Fuel
  | S f => walk_node (walk f) f st n
  end.
End Engine.
