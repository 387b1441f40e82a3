(** Specification of the requests and responses described with the builders of the consumer DSL: what they accept, in terms of the calls. *)
From Coq Require Import Ascii String List Arith NArith ZArith Lia Bool Permutation.
From Verif Require Import Base PathExp Json Text MatchingRules Matchers SpecMatch SpecValues Headers Query ContentType SpecHeaders SpecHttp
  Http Pattern SpecPattern Builder.
Import ListNotations.
Open Scope N_scope.

(** ** What a text pattern asks *)
(** A literal has no rule: where nothing else has one, the text is compared with the example. *)
Definition has_rule (p : string_pattern) : Prop := match p with SLiteral _ => False | _ => True end.
Fixpoint asks (w : world) (p : string_pattern) (y : str) : Prop :=
  match p with
  | SLiteral _ => True
  | SLike q => asks w q y
  | STerm regex _ => regex_match w regex y = Some true
  | SDateTime format _ => datetime_ok w y (format_or format (S_ "yyyy-MM-dd'T'HH:mm:ssXXX")) = true
  end.
Definition some_rule (ps : list string_pattern) : Prop := exists p, In p ps /\ has_rule p.
Definition all_ask (w : world) (ps : list string_pattern) (y : str) : Prop := forall p, In p ps -> asks w p y.

(** ** The calls, part by part *)
Definition methods (h : list request_call) : list str := flat_map (fun c => match c with RMethod m => [m] | _ => [] end) h.
Definition paths (h : list request_call) : list string_pattern :=
  flat_map (fun c => match c with RPath p | RPathFromState _ p => [p] | _ => [] end) h.
(** The values given for the query parameter [k], in order. *)
Definition params (h : list request_call) (k : str) : list string_pattern :=
  flat_map (fun c => match c with RQuery n v => if str_eqb n k then [v] else [] | _ => [] end) h.
Definition part_calls (h : list request_call) : list part_call := flat_map (fun c => match c with RPart p => [p] | _ => [] end) h.
Definition response_part_calls (h : list response_call) : list part_call := flat_map (fun c => match c with SPart p => [p] | _ => [] end) h.
Definition statuses (h : list response_call) : list N := flat_map (fun c => match c with SStatus s => [s] | _ => [] end) h.
Definition header_calls (l : list part_call) : list (str * string_pattern) :=
  flat_map (fun c => match c with PHeader n v | PHeaderFromState n _ v => [(n, v)] | _ => [] end) l.
(** The values given for the header [k], whatever the case of the name. *)
Definition values_of (lower : str -> str) (l : list (str * string_pattern)) (k : str) : list string_pattern :=
  map snd (filter (fun nv => str_eqb (lower (fst nv)) (lower k)) l).
Definition body_calls (l : list part_call) : list part_call :=
  filter (fun c => match c with PHeader _ _ | PHeaderFromState _ _ _ => false | _ => true end) l.

(** ** What is accepted *)
Section Accepted.
Variable w : world.
(** The path: if a rule was ever given for it, all of those given; else the path given last. *)
Definition path_accepted (ps : list string_pattern) (y : str) : Prop :=
  (some_rule ps /\ all_ask w ps y) \/ (~ some_rule ps /\ y = last (map s_example ps) (S_ "/")).
(** The values of a query parameter: if a rule was given for any of them, any number of values and each of them satisfies all the
    rules; else the values given, in that order. *)
Definition values_accepted (ps : list string_pattern) (a : list str) : Prop :=
  (some_rule ps /\ forall y, In y a -> all_ask w ps y) \/ (~ some_rule ps /\ a = map s_example ps).
Definition query_accepted (h : list request_call) (A : option query_map) : Prop :=
  forall k, match params_of A k with
            | None => params h k = []
            | Some a => params h k <> [] /\ values_accepted (params h k) a
            end.
(** The values of a header, the white space around them aside: the same, but without a rule they are compared as headers are (C21). *)
Definition header_accepted (name : str) (ps : list string_pattern) (a : list str) : Prop :=
  (some_rule ps /\ forall y, In y a -> all_ask w ps (trim w y)) \/
  (~ some_rule ps /\ values_agree (value_agrees (is_space w) (to_lower w) name) (blank (is_space w))
                                  (flat_map (fun p => parse_header w name (s_example p)) ps) a).
Definition headers_accepted (l : list (str * string_pattern)) (A : option SpecHeaders.header_map) : Prop :=
  forall name p, In (name, p) l ->
    exists m a, A = Some m /\ has_header (to_lower w) m name a /\ header_accepted name (values_of (to_lower w) l name) a.
End Accepted.

(** ** The calls this is claimed of *)
(** Header names are ASCII; a name written like a number is the usual form of it; a header with rules is always given with the
    name spelled in the same way. *)
Definition headers_sane (lower : str -> str) (l : list (str * string_pattern)) : Prop :=
  (forall n v, In (n, v) l -> ascii_text n /\ canonical_key (lower n)) /\
  (forall n v n' v', In (n, v) l -> In (n', v') l -> has_rule v -> has_rule v' -> lower n = lower n' -> n = n').
Definition params_sane (h : list request_call) : Prop := forall k, params h k <> [] -> canonical_key k.
Definition bodies_sane (l : list part_call) : Prop := forall p, In (PJsonBody p) l -> proper p.

(** The rule maps are hash maps: the rules of each part, in any order. *)
Definition shuffled (m m' : matching_rules) : Prop :=
  Forall2 (fun c c' => fst c = fst c' /\ cat_name (snd c) = cat_name (snd c') /\ Permutation (cat_rules (snd c)) (cat_rules (snd c'))) m m'.
Definition built_request (w : world) (x : externals) (h : list request_call) (e : request) : Prop :=
  let b := build_request w x h in
  req_method e = req_method b /\ req_path e = req_path b /\ req_query e = req_query b /\ req_headers e = req_headers b /\
  req_body e = req_body b /\ shuffled (req_rules b) (req_rules e).
Definition built_response (w : world) (x : externals) (h : list response_call) (e : response) : Prop :=
  let b := build_response w x h in
  resp_status e = resp_status b /\ resp_headers e = resp_headers b /\ resp_body e = resp_body b /\ shuffled (resp_rules b) (resp_rules e).

(** ** Bodies *)
(** The calls that set the body: the last one is [c], and those before it are literal texts. *)
Definition body_given_by (c : part_call) (l : list part_call) : Prop :=
  exists before, body_calls l = before ++ [c] /\ forall b, In b before -> (exists t, b = PBody t) \/ (exists t ct, b = PBody2 t ct).
(** Text given with [body_matching]: a text that satisfies the pattern; without a rule, the example itself. *)
Definition text_accepted (w : world) (p : string_pattern) (y : str) : Prop := (has_rule p /\ asks w p y) \/ (~ has_rule p /\ y = s_example p).
(** A content type that is text and not one of those with a comparison of their own. *)
Definition plain_text (x : externals) (ct : content_type) : Prop :=
  (~ json_type ct /\ ~ xml_type ct /\ main_type ct <> S_ "multipart" /\ parse_mime x (S_ "application/x-www-form-urlencoded") <> Some (base_type ct)) /\
  main_type ct = S_ "text" /\ parse_mime x (S_ "application/octet-stream") <> Some (base_type ct).

(** ** Generators *)
Definition last_of {A} (l : list A) : option A := last (map Some l) None.
(** The provider state expressions given for the path, and for the header [n]. *)
Definition path_expressions (h : list request_call) : list str := flat_map (fun c => match c with RPathFromState e _ => [e] | _ => [] end) h.
Definition header_expressions (l : list part_call) (n : str) : list str :=
  flat_map (fun c => match c with PHeaderFromState n' e _ => if str_eqb n' n then [e] else [] | _ => [] end) l.
