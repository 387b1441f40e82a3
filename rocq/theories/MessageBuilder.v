(** Model of the message builders, the interaction builder, the pact builder and the message iterators of the consumer DSL:
    rust/pact_consumer/src/builders/message_builder.rs, sync_message_builder.rs, interaction_builder.rs, pact_builder.rs,
    message_iter.rs.

    A builder is changed by a sequence of calls. Not modelled: contents set up by plugins (so also the plugin configuration
    and the markup, which are empty), the mock server, metrics. A hash map is the list of its entries. *)
From Coq Require Import Ascii String List Arith NArith ZArith Lia Bool.
From Verif Require Import Base PathExp Json Text MatchingRules Matchers Headers Query ContentType Http Merge Expr Generators Pattern Builder
  PactFile OldFile GenApply GenRequest.
Import ListNotations.
Open Scope N_scope.

(** ** What every builder has: states, comments, key, pending *)
Inductive about_call :=
| AGiven (name : str)
| AGivenWith (name : str) (params : json)
| AComment (text : str)
| ATestName (name : str)
| AKey (k : str)
| APending (b : bool)
| ATransport (name : str).
Record about := mkAbout { ab_states : list pstate; ab_comments : list str; ab_test : option str; ab_key : option str;
  ab_pending : option bool; ab_transport : option str }.
Definition about_start : about := mkAbout [] [] None None None None.
(** message_builder.rs:144-206, sync_message_builder.rs:63-117, interaction_builder.rs:61-121 ([transport] only there). *)
Definition about_step (a : about) (c : about_call) : about :=
  match c with
  | AGiven n => mkAbout (ab_states a ++ [mkState n []]) (ab_comments a) (ab_test a) (ab_key a) (ab_pending a) (ab_transport a)
  | AGivenWith n j =>
      mkAbout (ab_states a ++ [mkState n (match j with JObj m => m | _ => [] end)]) (ab_comments a) (ab_test a) (ab_key a) (ab_pending a) (ab_transport a)
  | AComment s => mkAbout (ab_states a) (ab_comments a ++ [s]) (ab_test a) (ab_key a) (ab_pending a) (ab_transport a)
  | ATestName s => mkAbout (ab_states a) (ab_comments a) (Some s) (ab_key a) (ab_pending a) (ab_transport a)
  | AKey k => mkAbout (ab_states a) (ab_comments a) (ab_test a) (Some k) (ab_pending a) (ab_transport a)
  | APending b => mkAbout (ab_states a) (ab_comments a) (ab_test a) (ab_key a) (Some b) (ab_transport a)
  | ATransport s => mkAbout (ab_states a) (ab_comments a) (ab_test a) (ab_key a) (ab_pending a) (Some s)
  end.
(** message_builder.rs:248-256, sync_message_builder.rs:182-190, interaction_builder.rs:146-153: comments, pending, transport. *)
Definition about_extra (a : about) (transport : option str) : extra :=
  mkExtra [(S_ "text", JArr (map JStr (ab_comments a))); (S_ "testname", match ab_test a with Some s => JStr s | None => JNull end)]
    (match ab_pending a with Some b => b | None => false end) [] ([], []) transport.

(** ** The contents of one message *)
Definition meta := list (str * json).
(** [HashMap::insert]. *)
Fixpoint meta_put (k : str) (v : json) (m : meta) : meta :=
  match m with
  | [] => [(k, v)]
  | (k', v') :: m' => if str_eqb k k' then (k', v) :: m' else (k', v') :: meta_put k v m'
  end.
(** message_builder.rs:55-83 [InteractionContents]. *)
Record contents_b := mkCB { cb_body : body; cb_rules : option category; cb_gens : option generators; cb_meta : option meta;
  cb_meta_rules : option category }.
Definition contents_start : contents_b := mkCB BMissing None None None None.
Definition meta_list (o : option meta) : meta := match o with Some m => m | None => [] end.
Definition cat_or (n : category_name) (o : option category) : category := match o with Some c => c | None => cat_empty n end.
(** matchingrules/mod.rs:1276-1279 [rules_for_category]. *)
Fixpoint find_category (n : category_name) (m : matching_rules) : option category :=
  match m with [] => None | (n', c) :: m' => if cat_eqb n n' then Some c else find_category n m' end.

Section Builder.
Variable w : world.
Variable x : externals.

Inductive contents_call :=
| CMeta (k : str) (v : json)
| CJson (p : pattern)
| CBytes (b : list N) (ct : option str)
| CContents (m : message) (g : generators)
| CReset (b : body).
(** The body of a JSON pattern: message_builder.rs:427, sync_message_builder.rs:421 and 493. *)
Definition json_body_of (p : pattern) : body :=
  BPresent (utf8 (json_show w (to_example p))) (Some (content_type_of x (S_ "application/json"))) None.
(** Its rules, in the category "content", which is read as BODY: message_builder.rs:428-429. *)
Definition pattern_category (p : pattern) : category := extract p path_root (cat_empty CBody).
(** The body of [body(bytes, content_type)]: message_builder.rs:443-447, sync_message_builder.rs:437-441 and 509-513. *)
Definition bytes_body (b : list N) (ct : option str) : body := BPresent b (option_map (content_type_of x) ct) None.
Definition contents_step (c : contents_b) (call : contents_call) : contents_b :=
  match call with
  | CMeta k v => (* message_builder.rs:187-192 [metadata], sync_message_builder.rs:122-127 [request_metadata] *)
      mkCB (cb_body c) (cb_rules c) (cb_gens c) (Some (meta_put k v (meta_list (cb_meta c)))) (cb_meta_rules c)
  | CJson p => (* message_builder.rs:424-439 [json_body], sync_message_builder.rs:418-433 [request_json_body] *)
      let rules := pattern_category p in
      mkCB (json_body_of p)
           (if cat_is_empty rules then cb_rules c
            else match cb_rules c with None => Some rules | Some mr => Some (cat_add_rules mr rules) end)
           (cb_gens c) (cb_meta c) (cb_meta_rules c)
  | CBytes b ct => (* message_builder.rs:442-460 [body], sync_message_builder.rs:436-454 [request_body] *)
      mkCB (bytes_body b ct) (cb_rules c) (cb_gens c)
           (Some (match ct with
                  | Some t => if obj_has (S_ "contentType") (meta_list (cb_meta c)) then meta_list (cb_meta c)
                              else meta_put (S_ "contentType") (JStr t) (meta_list (cb_meta c))
                  | None => meta_list (cb_meta c)
                  end)) (cb_meta_rules c)
  | CContents m g => (* sync_message_builder.rs:457-475 [request_contents] *)
      mkCB (msg_contents m)
           (match find_category CBody (msg_rules m) with Some k => Some (cat_add_rules (cat_or CBody (cb_rules c)) k) | None => cb_rules c end)
           (Some (add_generators g (match cb_gens c with Some g' => g' | None => [] end)))
           (Some (fold_left (fun m kv => meta_put (fst kv) (snd kv) m) (msg_metadata m) (meta_list (cb_meta c))))
           (match find_category CMetadata (msg_rules m) with Some k => Some (cat_add_rules (cat_or CMetadata (cb_meta_rules c)) k) | None => cb_meta_rules c end)
  | CReset b => mkCB b None None None None (* [InteractionContents { body, .. InteractionContents::default() }] *)
  end.

(** ** Asynchronous messages *)
Inductive async_call :=
| MAbout (c : about_call)
| MMeta (k : str) (v : json)
| MContentsFrom (j : json)
| MJsonBody (p : pattern)
| MBytes (b : list N) (ct : option str).
(** bodies.rs:236-242: a body from a JSON value. *)
Definition body_of_json (j : json) : body := BPresent (utf8 (json_show w j)) (Some (content_type_of x (S_ "application/json;charset=UTF-8"))) None.
Definition fields_of (j : json) : list (str * json) := match j with JObj m => m | _ => [] end.
(** message_builder.rs:283-356 [contents_from], 365-393 [setup_core_matcher]; the content type that cannot be read is unwrapped. *)
Definition contents_from_async (j : json) : outcome body unit :=
  let m := fields_of j in
  match obj_get (S_ "pact:content-type") m with
  | Some v => match parse_mime x (json_to_string w v) with
              | None => Panic
              | Some ct => Ok (match obj_get (S_ "contents") m with
                               | Some c => BPresent (utf8 (json_show w c)) (Some ct) None
                               | None => BMissing
                               end)
              end
  | None => Ok (body_of_json (JObj m))
  end.
Definition async_state := (about * contents_b)%type.
Definition async_step (s : async_state) (c : async_call) : outcome async_state unit :=
  match c with
  | MAbout c => Ok (about_step (fst s) c, snd s)
  | MMeta k v => Ok (fst s, contents_step (snd s) (CMeta k v))
  | MContentsFrom j => bind (contents_from_async j) (fun b => Ok (fst s, contents_step (snd s) (CReset b)))
  | MJsonBody p => Ok (fst s, contents_step (snd s) (CJson p))
  | MBytes b ct => Ok (fst s, contents_step (snd s) (CBytes b ct))
  end.
Fixpoint async_steps (s : async_state) (h : list async_call) : outcome async_state unit :=
  match h with [] => Ok s | c :: h' => bind (async_step s c) (fun s' => async_steps s' h') end.
(** message_builder.rs:212-214 and 234-247: the contents as they are built. *)
Definition async_contents (c : contents_b) : message * generators :=
  (mkMsg (cb_body c) (meta_list (cb_meta c)) (with_category CBody (fun k => cat_add_rules k (cat_or CBody (cb_rules c))) []),
   match cb_gens c with Some g => g | None => [] end).
(** message_builder.rs:209-258 [build]. *)
Definition build_async (desc : str) (h : list async_call) : outcome file_interaction unit :=
  bind (async_steps (about_start, contents_start) h) (fun s =>
    Ok (mkFI None (ab_key (fst s)) desc (ab_states (fst s)) (FAsync (async_contents (snd s))) (about_extra (fst s) None))).
(** message_builder.rs:261-280 [build_v3]. *)
Definition build_async_v3 (desc : str) (h : list async_call) : outcome old_message unit :=
  bind (async_steps (about_start, contents_start) h) (fun s =>
    Ok (mkOM None desc (ab_states (fst s)) (async_contents (snd s)))).

(** ** Synchronous messages *)
Inductive sync_call :=
| SAbout (c : about_call)
| SRequestMetadata (k : str) (v : json)
| SContentsFrom (j : json)
| SRequestJson (p : pattern)
| SRequestBody (b : list N) (ct : option str)
| SRequestContents (m : message) (g : generators)
| SResponseJson (p : pattern)
| SResponseBody (b : list N) (ct : option str)
| SResponseContents (m : message) (g : generators).
Definition sync_state := (about * (contents_b * list contents_b))%type.
(** bodies.rs:183-187 [set_content_type] on a body from JSON. *)
Definition typed_body (ct : option content_type) (j : json) : body :=
  match ct with Some c => BPresent (utf8 (json_show w j)) (Some c) None | None => body_of_json j end.
(** sync_message_builder.rs:207-263 [contents_from], 291-342 and 346-386 [setup_core_matcher]: the new request body, if any, and the
    bodies of the responses to add. *)
Definition contents_from_sync (j : json) : outcome (option body * list body) unit :=
  let m := fields_of j in
  bind (match obj_get (S_ "pact:content-type") m with
        | Some v => match parse_mime x (json_to_string w v) with None => Panic | Some ct => Ok (Some ct) end
        | None => Ok None
        end) (fun ct =>
    Ok (option_map (typed_body ct) (obj_get (S_ "request") m),
        match obj_get (S_ "response") m with
        | Some (JArr l) => map (typed_body ct) l
        | Some v => [typed_body ct v]
        | None => []
        end)).
(** sync_message_builder.rs:490-504 [response_json_body]. *)
Definition response_of_json (p : pattern) : contents_b :=
  mkCB (json_body_of p) (if cat_is_empty (pattern_category p) then None else Some (pattern_category p)) None None None.
(** sync_message_builder.rs:508-532 [response_body]: the key (line 516) has a space before "contentType". *)
Definition response_of_bytes (b : list N) (ct : option str) : contents_b :=
  mkCB (bytes_body b ct) None None (Some (match ct with Some t => [(S_ " contentType", JStr t)] | None => [] end)) None.
(** sync_message_builder.rs:536-551 [response_contents]. *)
Definition response_of_contents (m : message) (g : generators) : contents_b :=
  mkCB (msg_contents m) (find_category CBody (msg_rules m)) (Some g) (Some (msg_metadata m)) (find_category CMetadata (msg_rules m)).
Definition bare_response (b : body) : contents_b := mkCB b None None None None.
Definition on_request (s : sync_state) (c : contents_call) : sync_state := (fst s, (contents_step (fst (snd s)) c, snd (snd s))).
Definition add_responses (s : sync_state) (l : list contents_b) : sync_state := (fst s, (fst (snd s), snd (snd s) ++ l)).
Definition sync_step (s : sync_state) (c : sync_call) : outcome sync_state unit :=
  match c with
  | SAbout c => Ok (about_step (fst s) c, snd s)
  | SRequestMetadata k v => Ok (on_request s (CMeta k v))
  | SContentsFrom j =>
      bind (contents_from_sync j) (fun r =>
        Ok (add_responses (match fst r with Some b => on_request s (CReset b) | None => s end) (map bare_response (snd r))))
  | SRequestJson p => Ok (on_request s (CJson p))
  | SRequestBody b ct => Ok (on_request s (CBytes b ct))
  | SRequestContents m g => Ok (on_request s (CContents m g))
  | SResponseJson p => Ok (add_responses s [response_of_json p])
  | SResponseBody b ct => Ok (add_responses s [response_of_bytes b ct])
  | SResponseContents m g => Ok (add_responses s [response_of_contents m g])
  end.
Fixpoint sync_steps (s : sync_state) (h : list sync_call) : outcome sync_state unit :=
  match h with [] => Ok s | c :: h' => bind (sync_step s c) (fun s' => sync_steps s' h') end.
(** sync_message_builder.rs:133-137 and 169-173: the two categories of rules. *)
Definition sync_rules (c : contents_b) : matching_rules :=
  with_category CMetadata (fun k => cat_add_rules k (cat_or CMetadata (cb_meta_rules c)))
    (with_category CBody (fun k => cat_add_rules k (cat_or CBody (cb_rules c))) []).
Definition sync_message_of (c : contents_b) : message := mkMsg (cb_body c) (meta_list (cb_meta c)) (sync_rules c).
(** sync_message_builder.rs:130-190 [build]. The generators of every response are those of the request (line 178). *)
Definition build_sync (desc : str) (h : list sync_call) : outcome file_interaction unit :=
  bind (sync_steps (about_start, (contents_start, [])) h) (fun s =>
    let req := fst (snd s) in
    let gens := match cb_gens req with Some g => g | None => [] end in
    Ok (mkFI None (ab_key (fst s)) desc (ab_states (fst s))
          (FSync (sync_message_of req, gens) (map (fun r => (sync_message_of r, gens)) (snd (snd s)))) (about_extra (fst s) None))).

(** ** HTTP interactions *)
(** interaction_builder.rs:124-155 [build_v4] and [build]. *)
Definition build_http_v4 (desc : str) (a : list about_call) (q : list request_call) (p : list response_call) : file_interaction :=
  let ab := fold_left about_step a about_start in
  mkFI None (ab_key ab) desc (ab_states ab)
    (FHttp (build_request w x q, pb_generators (rb_part (request_calls w x q))) (build_response w x p, pb_generators (sb_part (response_calls w x p))))
    (about_extra ab (ab_transport ab)).
Definition build_http (desc : str) (a : list about_call) (q : list request_call) (p : list response_call) : http_interaction :=
  let ab := fold_left about_step a about_start in
  mkHI None desc (ab_states ab) (build_request w x q, pb_generators (rb_part (request_calls w x q)))
    (build_response w x p, pb_generators (sb_part (response_calls w x p))).

(** ** Pacts *)
(** An interaction of one of the formats. *)
Inductive any_interaction := XHttp (i : http_interaction) | XMsg (m : old_message) | XV4 (i : file_interaction).
(** sync_pact.rs:117-125, message_pact.rs:124-132, v4/pact.rs:287-295 [add_interaction]; [as_request_response], [as_message] and [as_v4]
    of each format (sync_interaction.rs, message.rs, v4/synch_http.rs, async_message.rs, sync_message.rs). *)
Definition add_interaction (p : any_pact) (i : any_interaction) : outcome any_pact unit :=
  match p with
  | AHttp p =>
      match (match i with XHttp i => [i] | XMsg _ => [] | XV4 i => downgrade_http i end) with
      | [] => Err tt
      | l => Ok (AHttp (mkHP (hp_who p) (hp_ints p ++ l) (hp_meta p) (hp_version p)))
      end
  | AMsg p =>
      match (match i with XHttp _ => [] | XMsg m => [m] | XV4 i => downgrade_message i end) with
      | [] => Err tt
      | l => Ok (AMsg (mkMF (mf_who p) (mf_msgs p ++ l) (mf_meta p) (mf_version p)))
      end
  | AV4 p =>
      Ok (AV4 (mkVF (vf_who p) (vf_ints p ++ [match i with XHttp i => upgrade_http i | XMsg m => upgrade_message m | XV4 i => i end])
                    (vf_meta p) (vf_plugins p)))
  end.
(** pact_builder.rs:178-249. *)
Inductive pact_call :=
| BInteraction (desc : str) (a : list about_call) (q : list request_call) (p : list response_call)
| BMessage (desc : str) (h : list async_call)
| BSyncMessage (desc : str) (h : list sync_call)
| BPush (i : any_interaction).
Definition is_v4 (p : any_pact) : bool := match p with AV4 _ => true | _ => false end.
(** The interaction a call adds. *)
Definition built_by (v4 : bool) (c : pact_call) : outcome any_interaction unit :=
  match c with
  | BInteraction d a q p => Ok (if v4 then XV4 (build_http_v4 d a q p) else XHttp (build_http d a q p))
  | BMessage d h => bind (build_async d h) (fun i => Ok (XV4 i))
  | BSyncMessage d h => bind (build_sync d h) (fun i => Ok (XV4 i))
  | BPush i => Ok i
  end.
(** 195-199 [push_interaction]: an error is unwrapped. *)
Definition pact_step (p : any_pact) (c : pact_call) : outcome any_pact unit :=
  bind (built_by (is_v4 p) c) (fun i => match add_interaction p i with Ok p' => Ok p' | _ => Panic end).
Fixpoint pact_steps (p : any_pact) (h : list pact_call) : outcome any_pact unit :=
  match h with [] => Ok p | c :: h' => bind (pact_step p c) (fun p' => pact_steps p' h') end.

(** ** Iterators *)
(** message_iter.rs:31-40, 43-47: the messages of a V4 pact. *)
Definition async_messages (p : v4_file) : list file_interaction := filter (fun i => match f_payload i with FAsync _ => true | _ => false end) (vf_ints p).
Definition sync_messages (p : v4_file) : list file_interaction := filter (fun i => match f_payload i with FSync _ _ => true | _ => false end) (vf_ints p).
(** message_iter.rs:142-144 [next]: takes the first message off the list. *)
Definition iter_next {M} (l : list M) : option M * list M := match l with [] => (None, []) | m :: l' => (Some m, l') end.
Fixpoint iter_take {M} (n : nat) (l : list M) : list (option M) :=
  match n with 0%nat => [] | S n' => let (o, l') := iter_next l in o :: iter_take n' l' end.
(** message_iter.rs:43-101 [synchronous_messages_iter] and 105-137 [messages_iter]: a task generates all the messages and sends them at
    once. The task of a runtime that was started for it may be dropped before it sends ([sent = false]). *)
Definition sync_iter {M} (generate : M -> M) (sent : bool) (l : list M) : list M := if sent then map generate l else l.
Definition v3_iter {M} (generate : M -> M) (sent : bool) (l : list M) : outcome (list M) unit := if sent then Ok (map generate l) else Panic.
(** What is generated for a synchronous message (message_iter.rs:55-62): request and responses; the rest is kept. *)
Definition generate_sync (gen : generators -> message -> message) (i : file_interaction) : file_interaction :=
  match f_payload i with
  | FSync q p => mkFI (f_id i) (f_key i) (f_desc i) (f_states i)
                   (FSync (gen (snd q) (fst q), snd q) (map (fun r => (gen (snd r) (fst r), snd r)) p)) (f_extra i)
  | _ => i
  end.
End Builder.
