(** Model of rust/pact_verifier/src/provider_client.rs and of the transports of
    rust/pact_verifier/src/lib.rs: which request goes to the provider, and how its answer is read.

    [reqwest] and [http] are outside: which texts are header names and values and methods is an
    argument, and a request to the network is a value of [native] with an answer that may be anything.
    That a client adds its default headers to a request only where the request has no header of the
    name is taken from the documentation of [reqwest::ClientBuilder::default_headers]. *)
From Coq Require Import Ascii String List Arith NArith ZArith Lia Bool.
From Verif Require Import Base PathExp Json Text MatchingRules Matchers JsonCompare Headers Query ContentType Http Merge.
Import ListNotations.
Open Scope N_scope.

(** lib.rs:165-176 [struct ProviderTransport], 201-218 [struct ProviderInfo]. *)
Record transport := mkTransport { t_name : str; t_port : option N; t_path : option str; t_scheme : option str }.
Record provider_info := mkProvider {
  p_name : str; p_protocol : str; p_host : str; p_port : option N; p_path : str; p_transports : list transport }.

(** [unwrap_or_default] on texts. *)
Definition or_nothing (o : option str) : str := match o with Some s => s | None => [] end.
(** [format!("{}://{}:{}{}", scheme, host, port, path)] and the form without a port. *)
Definition url_of (scheme host : str) (port : option N) (path : str) : str :=
  scheme ++ S_ "://" ++ host ++ (match port with Some p => S_ ":" ++ show_N p | None => [] end) ++ path.
(** lib.rs:178-187 [base_url]. *)
Definition base_url (t : transport) (host : str) : str :=
  url_of (match t_scheme t with Some s => s | None => S_ "http" end) host (t_port t) (or_nothing (t_path t)).

(** lib.rs:347-366, messages.rs:57-84, 300-319: the first transport of one of the names, with a scheme. *)
Definition find_transport (wanted : str -> bool) (p : provider_info) : option transport :=
  match find (fun t => wanted (t_name t)) (p_transports p) with
  | Some t => Some (match t_scheme t with
                    | None => mkTransport (t_name t) (t_port t) (t_path t) (Some (S_ "http"))
                    | Some _ => t
                    end)
  | None => None
  end.
(** provider_client.rs:213-222. *)
Definition target_url (p : provider_info) (t : option transport) : str :=
  match t with
  | Some t => base_url t (p_host p)
  | None => url_of (p_protocol p) (p_host p) (p_port p) (p_path p)
  end.

(** [trim_start_matches('/')], [trim_end_matches('/')]. *)
Definition is_slash (c : N) : bool := c =? 47.
Definition trim_start_slashes (s : str) : str := drop_while is_slash s.
Definition trim_end_slashes (s : str) : str := rev (drop_while is_slash (rev s)).
(** provider_client.rs:75-86 [join_paths]. *)
Definition join_paths (base path : str) : str :=
  if nonempty path && negb (str_eqb path (S_ "/")) then trim_end_slashes base ++ S_ "/" ++ trim_start_slashes path
  else if nonempty base && negb (str_eqb base (S_ "/")) then trim_end_slashes base
  else S_ "/".

(** What of the crates [http], [base64] and [serde_json] matters. *)
Record client_externals := mkCx {
  method_ok : str -> bool;             (* http::Method::from_bytes(..).is_ok() *)
  http_name : str -> option str;       (* http::HeaderName::try_from: the name in lower case *)
  http_value_ok : str -> bool;         (* http::HeaderValue::from_str(..).is_ok() *)
  metadata_of : str -> list (str * json) (* base64 and JSON decoding, empty when that fails *)
}.

(** A request on the network: header names in lower case. *)
Record native := mkNative { n_method : str; n_url : str; n_query : list (str * option str);
  n_headers : list (str * str); n_body : option (list N) }.
(** Its answer; a header value that is no visible ASCII text is [None]. *)
Record native_response := mkNR { nr_status : N; nr_headers : list (str * list (option str)); nr_body : list N }.

(** [sorted_by(|a, b| Ord::cmp(&a.0, &b.0))]. *)
Fixpoint insert_by_key {A} (e : str * A) (l : list (str * A)) : list (str * A) :=
  match l with
  | [] => [e]
  | e' :: l' => match str_compare (fst e) (fst e') with Gt => e' :: insert_by_key e l' | _ => e :: l end
  end.
Definition sort_by_key {A} (l : list (str * A)) : list (str * A) := fold_right insert_by_key [] l.

Section Client.
Variable w : world.
Variable x : externals.
Variable cx : client_externals.

(** provider_client.rs:106-116: one value, and the values of one header of the request; [None] is an error. *)
Definition native_value (name value : str) : option (str * str) :=
  match http_name cx name with
  | Some n => if http_value_ok cx value then Some (n, value) else None
  | None => None
  end.
Fixpoint all_some {A} (l : list (option A)) : option (list A) :=
  match l with
  | [] => Some []
  | Some a :: l' => option_map (cons a) (all_some l')
  | None :: _ => None
  end.
Definition native_headers (custom : list (str * str)) (h : option hmap) : option (list (str * str)) :=
  match h with
  | None => Some []
  | Some m => all_some (flat_map (fun kv => map (native_value (fst kv)) (snd kv))
                          (filter (fun kv => negb (obj_has (fst kv) custom)) m))
  end.
(** lib.rs:704-722 [setup_custom_headers]. *)
Definition default_headers (custom : list (str * str)) : option (list (str * str)) :=
  all_some (map (fun kv => native_value (fst kv) (snd kv)) custom).

(** 88-135 [create_native_request]. *)
Definition native_body (r : request) : option (list N) :=
  match req_body r with
  | BPresent s _ _ => Some s
  | BNull => if is_json (part_content_type w x (req_part r)) then Some (utf8 (S_ "null")) else None
  | _ => None
  end.
Definition native_query (q : option query_map) : list (str * option str) :=
  match q with
  | Some m => flat_map (fun kv => map (fun v => (fst kv, v)) (snd kv)) (sort_by_key m)
  | None => []
  end.
Definition create_native_request (base : str) (r : request) (custom : list (str * str)) : option native :=
  match native_headers custom (req_headers r) with
  | Some hs =>
      Some (mkNative (if method_ok cx (req_method r) then req_method r else S_ "GET")
                     (join_paths base (req_path r)) (native_query (req_query r)) hs (native_body r))
  | None => None
  end.
(** The client adds its default headers where there is none of the name. *)
Definition with_defaults (defaults : list (str * str)) (n : native) : native :=
  mkNative (n_method n) (n_url n) (n_query n)
           (n_headers n ++ filter (fun kv => negb (obj_has (fst kv) (n_headers n))) defaults) (n_body n).

(** 137-160 [extract_headers]: one header. *)
Definition somes {A} (l : list (option A)) : list A := flat_map (fun o => match o with Some a => [a] | None => [] end) l.
Definition extract_header (name : str) (vals : list (option str)) : list str :=
  map (trim w) (flat_map (parse_header w name) (somes vals)).
Definition extract_headers (hs : list (str * list (option str))) : option hmap :=
  match hs with
  | [] => None
  | _ => Some (map (fun kv => (fst kv, extract_header (fst kv) (snd kv))) hs)
  end.
(** 162-187 [extract_body], [native_response_to_pact_response]. The content type of a response without a body is that
    of its header, if it can be read. *)
Definition header_content_type (h : option hmap) : option content_type :=
  match lookup_header_value w h (S_ "content-type") with
  | Some v => parse_mime x v
  | None => None
  end.
Definition pact_response (r : native_response) : response :=
  let h := extract_headers (nr_headers r) in
  mkResp (nr_status r) h (match nr_body r with [] => BEmpty | b => BPresent b (header_content_type h) None end) [].

(** messages.rs:243-268 [extract_metadata]. *)
Definition insert_all_json (l : list (str * json)) (m : list (str * json)) : list (str * json) :=
  fold_left (fun m kv => obj_insert (fst kv) (snd kv) m) l m.
Definition extract_metadata (r : response) : list (str * json) :=
  fold_left (fun m kv =>
      if str_eqb (to_lower w (fst kv)) (S_ "pact-message-metadata")
      then insert_all_json (metadata_of cx (match snd kv with v :: _ => v | [] => [] end)) m else m)
    (match resp_headers r with Some h => h | None => [] end)
    [(S_ "contentType", JStr (or_nothing (lookup_header_value w (resp_headers r) (S_ "content-type"))))].
End Client.

(** utils.rs:13-67 [with_retries]: the answers to one request after another. [server_error a]: it has a status 5xx (or is an error with such a status).
    [again]: the request can be cloned. The number is that of the requests sent. *)
Section Retries.
Context {A : Type}.
Variable server_error : A -> bool.
Variable send : nat -> A.
(** The state of the fold: the answer so far, if there is a request left to send, how many were sent. *)
Definition retry_step (s : option A * bool * nat) : option A * bool * nat :=
  match s with
  | (response, false, n) => (response, false, n)
  | (None, true, n) => (Some (send n), true, S n)
  | (Some a, true, n) => if server_error a then (Some (send n), true, S n) else (Some a, false, n)
  end.
Definition with_retries (again : bool) (retries : nat) : outcome (A * nat) unit :=
  if again then
    match fold_left (fun s _ => retry_step s) (seq 1 retries) (None, true, O) with
    | (Some a, _, n) => Ok (a, n)
    | (None, _, _) => Panic
    end
  else Ok (send O, 1%nat).
End Retries.
