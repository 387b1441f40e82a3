(** Model of rust/pact_verifier/src/callback_executors.rs (the executor that asks for provider states over HTTP)
    and of [make_state_change_request] of provider_client.rs.

    The network is outside: the answers to one request after another may be anything. *)
From Coq Require Import Ascii String List Arith NArith ZArith Lia Bool.
From Verif Require Import Base PathExp Json Text MatchingRules Matchers JsonCompare Headers Query ContentType Http Merge VerifierClient Verifier.
Import ListNotations.
Open Scope N_scope.

(** callback_executors.rs:93-103 [struct HttpRequestProviderStateExecutor]. *)
Record state_executor := mkExecutor { se_url : option str; se_teardown : bool; se_body : bool; se_retries : nat }.
(** 105-115 [default]. *)
Definition default_executor : state_executor := mkExecutor None false true 3.

(** What [reqwest] makes of a request: an answer, or an error that may carry a status. *)
Inductive reply := Answered (r : native_response) | Unanswered (status : option N).
(** [http::StatusCode::is_success], [is_server_error]. *)
Definition is_success (n : N) : bool := (200 <=? n) && (n <? 300).
Definition is_server_error (n : N) : bool := (500 <=? n) && (n <? 600).
Definition failed_on_server (r : reply) : bool :=
  match r with
  | Answered a => is_server_error (nr_status a)
  | Unanswered (Some n) => is_server_error n
  | Unanswered None => false
  end.

Section StateChange.
Variable w : world.
Variable x : externals.
Variable cx : client_externals.

Definition action (setup : bool) : str := if setup then S_ "setup" else S_ "teardown".
(** 131-139: json!{...}; its keys are sorted. *)
Definition state_change_json (s : pstate) (setup : bool) : json :=
  JObj (obj_of_list [(S_ "state", JStr (st_name s)); (S_ "params", JObj (insert_all_json (st_params s) []));
                     (S_ "action", JStr (action setup))]).
(** 143-155. *)
Definition state_change_query (s : pstate) (setup : bool) : query_map :=
  fold_left (fun q kv => obj_insert (fst kv) [Some (match snd kv with JStr t => t | v => json_show w v end)] q) (st_params s)
    (obj_insert (S_ "action") [Some (action setup)] [(S_ "state", [Some (st_name s)])]).
(** 129-156: a default request (v4/http_parts.rs:150-162) with another method. *)
Definition state_change_request (e : state_executor) (s : pstate) (setup : bool) : request :=
  if se_body e then
    mkReq (S_ "POST") (S_ "/") None (Some [(S_ "Content-Type", [S_ "application/json"])])
      (BPresent (utf8 (json_show w (state_change_json s setup))) (Some (mkCT (S_ "application") (S_ "json") [] None)) None) []
  else mkReq (S_ "POST") (S_ "/") (Some (state_change_query s setup)) None BMissing [].

(** [headers().get(CONTENT_TYPE)], then [to_str().unwrap_or_default()]. *)
Definition first_content_type (r : native_response) : option str :=
  match obj_get (S_ "content-type") (nr_headers r) with
  | Some (Some v :: _) => Some v
  | Some (None :: _) => Some []
  | _ => None
  end.
(** provider_client.rs:252-276: the values of an answer with a status 2xx. *)
Definition returned_values (r : native_response) : list (str * json) :=
  match first_content_type r with
  | Some v =>
      match parse_mime x v with
      | Some ct =>
          if is_json ct then
            match json_of_bytes x (nr_body r) with Some (JObj m) => m | _ => [] end
          else []
      | None => []
      end
  | None => []
  end.

(** provider_client.rs:239-283 [make_state_change_request]: what it gives ([None]: an error), and the requests sent. *)
Definition make_state_change_request (answers : native -> nat -> reply) (defaults : list (str * str)) (url : str)
    (r : request) (retries : nat) : outcome (option (list (str * json)) * list native) unit :=
  match create_native_request w x cx url r [] with
  | None => Ok (None, [])
  | Some n =>
      let n := with_defaults defaults n in
      bind (with_retries failed_on_server (answers n) true retries) (fun an =>
        Ok (match fst an with
            | Answered a => if is_success (nr_status a) then Some (returned_values a) else None
            | Unanswered _ => None
            end, repeat n (snd an)))
  end.

(** callback_executors.rs:119-170 [call]. *)
Definition call_executor (e : state_executor) (answers : native -> nat -> reply) (defaults : list (str * str))
    (s : pstate) (setup : bool) : outcome (option (list (str * json)) * list native) unit :=
  match se_url e with
  | Some url => make_state_change_request answers defaults url (state_change_request e s setup) (se_retries e)
  | None => Ok (Some [], [])
  end.
End StateChange.
