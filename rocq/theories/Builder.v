(** Model of the request and response builders of the consumer DSL:
    rust/pact_consumer/src/builders/request_builder.rs, response_builder.rs, http_part_builder.rs.

    A builder is changed by a sequence of calls. Not modelled: [contents] (plugins and bodies given as JSON definitions),
    the plugin configuration and the interaction markup; an argument [Into<StringPattern>] or [Into<JsonPattern>] is the
    pattern it is turned into. *)
From Coq Require Import Ascii String List Arith NArith ZArith Lia Bool.
From Verif Require Import Base PathExp Json Text MatchingRules Matchers Headers Query ContentType Http Expr Generators Pattern.
Import ListNotations.
Open Scope N_scope.

(** matchingrules/mod.rs:1284-1293 [add_category], and an update of the category it gives. *)
Fixpoint with_category (n : category_name) (f : category -> category) (m : matching_rules) : matching_rules :=
  match m with
  | [] => [(n, f (cat_empty n))]
  | (n', c) :: m' => if cat_eqb n n' then (n', f c) :: m' else (n', c) :: with_category n f m'
  end.

(** The path [$.name] made with [DocPath::root] and [push_field]. *)
Definition named_path (name : str) : docpath := push_field path_root name.

(** What the builders of requests and responses have in common: headers, body, rules and generators. *)
Record part_builder := mkPB { pb_headers : option hmap; pb_body : body; pb_rules : matching_rules; pb_generators : generators }.

Section Builder.
Variable w : world.
Variable x : externals.

(** http_part_builder.rs:59-67: the values are added to the first header with the same name ignoring case. *)
Fixpoint extend_header (name : str) (values : list str) (m : hmap) : hmap :=
  match m with
  | [] => [(name, values)]
  | (k, vs) :: m' => if str_eqb (to_lower w k) (to_lower w name) then (k, vs ++ values) :: m' else (k, vs) :: extend_header name values m'
  end.

(** The calls on either builder. *)
Inductive part_call :=
| PHeader (name : str) (value : string_pattern)
| PHeaderFromState (name expression : str) (value : string_pattern)
| PBody (text : str)
| PBody2 (text content_type : str)
| PJsonBody (p : pattern)
| PBodyMatching (p : string_pattern)
| PBodyMatching2 (p : string_pattern) (content_type : str).

(** http_part_builder.rs:51-73 [header]; content_type, html and json_utf8 (111-133) are calls of it. *)
Definition header_call (name : str) (value : string_pattern) (b : part_builder) : part_builder :=
  mkPB (Some (extend_header name (parse_header w name (s_example value)) (match pb_headers b with Some m => m | None => [] end)))
       (pb_body b)
       (with_category CHeader (s_extract value (named_path name)) (pb_rules b))
       (pb_generators b).
(** content_types.rs:208-212: [From<&str>]. *)
Definition content_type_of (s : str) : content_type := match parse_mime x s with Some c => c | None => ct_default end.
Definition set_body (v : body) (b : part_builder) : part_builder := mkPB (pb_headers b) v (pb_rules b) (pb_generators b).
Definition add_body_rules (f : category -> category) (b : part_builder) : part_builder :=
  mkPB (pb_headers b) (pb_body b) (with_category CBody f (pb_rules b)) (pb_generators b).

Definition part_step (b : part_builder) (c : part_call) : part_builder :=
  match c with
  | PHeader name value => header_call name value b
  | PHeaderFromState name expression value =>
      (* 86-108 [header_from_provider_state] *)
      let b' := header_call name value b in
      mkPB (pb_headers b') (pb_body b') (pb_rules b')
           (add_generator_at GcHeader (named_path name) (GProviderState expression (Some DString)) (pb_generators b'))
  | PBody text => set_body (BPresent (utf8 text) None None) b (* 143-150 [body] *)
  | PBody2 text ct => set_body (BPresent (utf8 text) (parse_mime x ct) None) b (* 160-167 [body2] *)
  | PJsonBody p => (* 180-188 [json_body] *)
      add_body_rules (extract p path_root)
        (set_body (BPresent (utf8 (json_show w (to_example p))) (Some (content_type_of (S_ "application/json"))) None) b)
  | PBodyMatching p => (* 199-207 [body_matching] *)
      add_body_rules (s_extract p path_root)
        (set_body (BPresent (utf8 (s_example p)) (Some (content_type_of (S_ "text/plain"))) None) b)
  | PBodyMatching2 p ct => (* 218-226 [body_matching2] *)
      add_body_rules (s_extract p path_root) (set_body (BPresent (utf8 (s_example p)) (parse_mime x ct) None) b)
  end.

(** request_builder.rs:53-152. *)
Inductive request_call :=
| RMethod (m : str)
| RPath (p : string_pattern)
| RPathFromState (expression : str) (p : string_pattern)
| RQuery (name : str) (value : string_pattern)
| RPart (c : part_call).
(** v4/http_parts.rs:385-400 [HttpRequest] as it is built. *)
Record request_builder := mkRB { rb_method : str; rb_path : str; rb_query : option query_map; rb_part : part_builder }.
(** v4/http_parts.rs:424-436 [HttpRequest::default]. *)
Definition no_part : part_builder := mkPB None BMissing [] [].
Definition request_start : request_builder := mkRB (S_ "GET") (S_ "/") None no_part.
(** [HashMap::entry(..).or_insert_with(Default::default).push(..)]. *)
Fixpoint push_param (name : str) (v : option str) (m : query_map) : query_map :=
  match m with
  | [] => [(name, [v])]
  | (k, vs) :: m' => if str_eqb name k then (k, vs ++ [v]) :: m' else (k, vs) :: push_param name v m'
  end.
Definition with_rules (n : category_name) (f : category -> category) (b : part_builder) : part_builder :=
  mkPB (pb_headers b) (pb_body b) (with_category n f (pb_rules b)) (pb_generators b).
(** request_builder.rs:78-86 [path]. *)
Definition path_call (p : string_pattern) (b : request_builder) : request_builder :=
  mkRB (rb_method b) (s_example p) (rb_query b) (with_rules CPath (s_extract p path_empty) (rb_part b)).
Definition request_step (b : request_builder) (c : request_call) : request_builder :=
  match c with
  | RMethod m => mkRB m (rb_path b) (rb_query b) (rb_part b) (* 53-56 [method]; get, post, put and delete (60-77) are calls of it *)
  | RPath p => path_call p b
  | RPathFromState expression p =>
      (* 89-101 [path_from_provider_state] *)
      let b' := path_call p b in
      let pb := rb_part b' in
      mkRB (rb_method b') (rb_path b') (rb_query b')
           (mkPB (pb_headers pb) (pb_body pb) (pb_rules pb) (add_generator GcPath (GProviderState expression (Some DString)) (pb_generators pb)))
  | RQuery name value =>
      (* 117-143 [query_param] *)
      mkRB (rb_method b) (rb_path b)
           (Some (push_param name (Some (s_example value)) (match rb_query b with Some m => m | None => [] end)))
           (with_rules CQuery (s_extract value (named_path name)) (rb_part b))
  | RPart c => mkRB (rb_method b) (rb_path b) (rb_query b) (part_step (rb_part b) c)
  end.
(** The request after the calls: 151-153 [build_v4] (without the generators, which matching does not use). *)
Definition request_calls (h : list request_call) : request_builder := fold_left request_step h request_start.
Definition build_request (h : list request_call) : request :=
  let b := request_calls h in
  mkReq (rb_method b) (rb_path b) (rb_query b) (pb_headers (rb_part b)) (pb_body (rb_part b)) (pb_rules (rb_part b)).

(** response_builder.rs:43-85. *)
Inductive response_call :=
| SStatus (code : N)
| SPart (c : part_call).
Record response_builder := mkSB { sb_status : N; sb_part : part_builder }.
(** v4/http_parts.rs:460-470 [HttpResponse::default]. *)
Definition response_start : response_builder := mkSB 200 no_part.
Definition response_step (b : response_builder) (c : response_call) : response_builder :=
  match c with
  | SStatus code => mkSB code (sb_part b) (* 43-46 [status]; ok, created, no_content, unauthorized, forbidden, not_found (52-79) are calls of it *)
  | SPart c => mkSB (sb_status b) (part_step (sb_part b) c)
  end.
Definition response_calls (h : list response_call) : response_builder := fold_left response_step h response_start.
Definition build_response (h : list response_call) : response :=
  let b := response_calls h in mkResp (sb_status b) (pb_headers (sb_part b)) (pb_body (sb_part b)) (pb_rules (sb_part b)).
End Builder.
