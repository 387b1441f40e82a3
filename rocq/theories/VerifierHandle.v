(** Model of the handle interface of the verifier in the FFI (rust/pact_ffi/src/verifier/handle.rs, mod.rs:85-925), of the command
    line verifier after its arguments were parsed (rust/pact_verifier_cli/src/main.rs:456-765) and of the JSON report
    (rust/pact_verifier/src/verification_result.rs:70-165).

    What a run of the verifier gives for a configuration is a parameter of the call [CExecute] (the run itself: Verifier.v).
    Mismatches are given by their JSON form. The deprecated [request_filter] is always absent here. Log buffers: see C61. *)
From Coq Require Import Ascii String List Arith NArith ZArith Lia Bool.
From Verif Require Import Base PathExp Json Text VerifierClient Verifier Broker.
Import ListNotations.
Open Scope N_scope.

(** verifier/lib.rs:84-127 [PactSource]. *)
Inductive source :=
| SrcFile (file : str)
| SrcDir (dir : str)
| SrcUrl (url : str) (auth : option http_auth)
| SrcBrokerUrl (provider url : str) (auth : option http_auth)
| SrcBroker (provider url : str) (pending : bool) (wip_since : option str) (tags : list str) (branch : option str) (selectors : list selector) (auth : option http_auth)
| SrcWebhook (pact_url broker_url : str) (auth : option http_auth).
(** lib.rs:884-894 [PublishOptions]. *)
Record publish_options := mkPublish { po_version : option str; po_build_url : option str; po_tags : list str; po_branch : option str }.
(** What [verify_provider_async] is called with: lib.rs:909-935 [VerificationOptions], callback_executors.rs:84-115. *)
Record config := mkConfig {
  c_provider : provider_info;
  c_sources : list source;
  c_filter : filter_info;
  c_consumers : list str;
  c_no_ssl : bool; c_timeout : N; c_headers : list (str * str); c_coloured : bool; c_no_pacts_is_error : bool;
  c_publish : option publish_options;
  c_state_url : option str; c_teardown : bool; c_state_body : bool }.
(** lib.rs:220-233. *)
Definition default_provider : provider_info := mkProvider (S_ "provider") (S_ "http") (S_ "localhost") (Some 8080) (S_ "/") [].
Definition default_config : config := mkConfig default_provider [] FNone [] false 5000 [] true true None None false true.

(** verification_result.rs:101-119, 38-54; [interaction_results] is not in the JSON report. *)
Inductive problem := PMismatches (mismatches : list json) (id : option str) | PError (message : str) (id : option str).
Record report := mkReport { rp_result : bool; rp_notices : list (list (str * str)); rp_output : list str;
  rp_pending : list (str * problem); rp_errors : list (str * problem) }.
Definition new_report : report := mkReport true [] [] [] [].
(** 141-160. *)
Definition problem_json (p : problem) : json :=
  match p with
  | PMismatches ms id => object [(S_ "type", JStr (S_ "mismatches")); (S_ "mismatches", JArr ms); (S_ "interactionId", JStr (or_nothing id))]
  | PError m id => object [(S_ "type", JStr (S_ "error")); (S_ "message", JStr m); (S_ "interactionId", JStr (or_nothing id))]
  end.
Definition failed_json (e : str * problem) : json := object [(S_ "interaction", JStr (fst e)); (S_ "mismatch", problem_json (snd e))].
(** 70-93. *)
Definition report_json (r : report) : json :=
  object [(S_ "result", JBool (rp_result r));
          (S_ "notices", JArr (map (fun m => object (map (fun kv => (fst kv, JStr (snd kv))) m)) (rp_notices r)));
          (S_ "output", JArr (map JStr (rp_output r)));
          (S_ "pendingErrors", JArr (map failed_json (rp_pending r)));
          (S_ "errors", JArr (map failed_json (rp_errors r)))].

(** handle.rs:19-32 [VerifierHandle]. *)
Record handle := mkHandle { vh_config : config; vh_app : option (str * str); vh_report : report }.

(** pact_broker.rs:1028-1087 read by serde, selectors.rs:8-12 [json_to_selectors]: what cannot be read is left out. *)
Definition selector_names : list str :=
  [S_ "consumer"; S_ "tag"; S_ "fallbackTag"; S_ "latest"; S_ "deployedOrReleased"; S_ "deployed"; S_ "released"; S_ "environment";
   S_ "mainBranch"; S_ "branch"; S_ "matchingBranch"; S_ "fallbackBranch"].
Definition de_selector (j : json) : option selector :=
  let s := de_default (de_option de_str) None in let b := de_default (de_option de_bool) None in
  match struct_fields 12 selector_names j with
  | Some [f1; f2; f3; f4; f5; f6; f7; f8; f9; f10; f11; f12] =>
      match s f1, s f2, s f3, b f4, b f5, b f6 with
      | Some f1, Some f2, Some f3, Some f4, Some f5, Some f6 =>
          match b f7, s f8, b f9, s f10, b f11, s f12 with
          | Some f7, Some f8, Some f9, Some f10, Some f11, Some f12 => Some (mkSelector f1 f2 f3 f4 f5 f6 f7 f8 f9 f10 f11 f12)
          | _, _, _, _, _, _ => None
          end
      | _, _, _, _, _, _ => None
      end
  | _ => None
  end.
Definition json_to_selectors (l : list json) : list selector := flat_map (fun j => match de_selector j with Some s => [s] | None => [] end) l.
(** selectors.rs:15-32 [consumer_tags_to_selectors]. *)
Definition tag_selector (t : str) : selector := mkSelector None (Some t) None (Some true) None None None None None None None None.

Section Calls.
(** [String::from_utf8_lossy] of bytes that are not UTF-8; serde_json parsing a text. *)
Variable lossy : list N -> str.
Variable parse_json : str -> option json.

(** A C string: NULL or the bytes before the first zero. *)
Definition cstr := option (list N).
(** util/string.rs:71-84 [optional_str]. *)
Definition optional_str (s : cstr) : option str :=
  match s with
  | None => None
  | Some b => match (match from_utf8 b with Some t => t | None => lossy b end) with [] => None | t => Some t end
  end.
(** 65-67 [if_null]. *)
Definition if_null (s : cstr) (default : str) : str := match optional_str s with Some t => t | None => default end.
(** 50-61 [safe_str!]: NULL and what is not UTF-8 are errors. *)
Definition safe_str (s : cstr) : option str := match s with Some b => from_utf8 b | None => None end.
(** mod.rs:815-829 [get_vector]: NULL, or as many pointers as the length says. *)
Definition get_vector (items : option (list cstr)) : list str :=
  match items with
  | Some l => flat_map (fun i => match if_null i [] with [] => [] | t => [t] end) l
  | None => []
  end.
(** The tests [is_empty] before an optional value (mod.rs:245-249, 475-479, 596-600; handle.rs:82, 109-110). *)
Definition present (t : str) : option str := match t with [] => None | _ => Some t end.
(** mod.rs:474-484, 515-525, 584-594: HttpAuth of the three texts; handle.rs:152-199: [HttpAuth::None] is no authentication. *)
Definition auth_of (username password token : cstr) : option http_auth :=
  match if_null username [] with
  | (_ :: _) as u => Some (AUser u (present (if_null password [])))
  | [] => match if_null token [] with [] => None | t => Some (AToken t) end
  end.

Inductive call :=
| CSetProviderInfo (name scheme host : cstr) (port : N) (path : cstr)
| CAddTransport (protocol : cstr) (port : N) (path scheme : cstr)
| CSetFilterInfo (description state : cstr) (no_state : N)
| CSetProviderState (url : cstr) (teardown body : N)
| CSetVerificationOptions (disable_ssl : N) (timeout : N)
| CSetColouredOutput (coloured : N)
| CSetNoPactsIsError (is_error : N)
| CSetPublishOptions (version build_url : cstr) (tags : option (list cstr)) (branch : cstr)
| CSetConsumerFilters (consumers : option (list cstr))
| CAddCustomHeader (name value : cstr)
| CAddFileSource (file : cstr)
| CAddDirectorySource (dir : cstr)
| CUrlSource (url username password token : cstr)
| CBrokerSource (url username password token : cstr)
| CBrokerSourceWithSelectors (url username password token : cstr) (pending : N) (wip_since : cstr) (provider_tags : option (list cstr)) (branch : cstr)
    (selectors consumer_tags : option (list cstr))
| CExecute (run : config -> report + str). (* the report, or the error *)

Definition flag (n : N) : bool := 0 <? n.
(** handle.rs:116-138 [update_filter_info] (and pact_verifier_cli/src/main.rs:723-742 [interaction_filter] of the command line, where a text that is
    present may be empty). *)
Definition filter_of (description state : str) (no_state : bool) : filter_info :=
  match description, state with
  | _ :: _, _ :: _ => FDescriptionAndState description state
  | _ :: _, [] => if no_state then FDescriptionAndState description [] else FDescription description
  | [], _ :: _ => FState state
  | [], [] => if no_state then FState [] else FNone
  end.

Definition with_provider (c : config) (p : provider_info) : config :=
  mkConfig p (c_sources c) (c_filter c) (c_consumers c) (c_no_ssl c) (c_timeout c) (c_headers c) (c_coloured c) (c_no_pacts_is_error c) (c_publish c) (c_state_url c) (c_teardown c) (c_state_body c).
Definition with_source (c : config) (s : source) : config :=
  mkConfig (c_provider c) (c_sources c ++ [s]) (c_filter c) (c_consumers c) (c_no_ssl c) (c_timeout c) (c_headers c) (c_coloured c) (c_no_pacts_is_error c) (c_publish c) (c_state_url c) (c_teardown c) (c_state_body c).
Definition with_filter (c : config) (f : filter_info) : config :=
  mkConfig (c_provider c) (c_sources c) f (c_consumers c) (c_no_ssl c) (c_timeout c) (c_headers c) (c_coloured c) (c_no_pacts_is_error c) (c_publish c) (c_state_url c) (c_teardown c) (c_state_body c).
Definition with_consumers (c : config) (l : list str) : config :=
  mkConfig (c_provider c) (c_sources c) (c_filter c) l (c_no_ssl c) (c_timeout c) (c_headers c) (c_coloured c) (c_no_pacts_is_error c) (c_publish c) (c_state_url c) (c_teardown c) (c_state_body c).
Definition with_options (c : config) (no_ssl : bool) (timeout : N) : config :=
  mkConfig (c_provider c) (c_sources c) (c_filter c) (c_consumers c) no_ssl timeout (c_headers c) (c_coloured c) (c_no_pacts_is_error c) (c_publish c) (c_state_url c) (c_teardown c) (c_state_body c).
Definition with_header (c : config) (k v : str) : config :=
  mkConfig (c_provider c) (c_sources c) (c_filter c) (c_consumers c) (c_no_ssl c) (c_timeout c) (obj_insert k v (c_headers c)) (c_coloured c) (c_no_pacts_is_error c) (c_publish c) (c_state_url c) (c_teardown c) (c_state_body c).
Definition with_coloured (c : config) (b : bool) : config :=
  mkConfig (c_provider c) (c_sources c) (c_filter c) (c_consumers c) (c_no_ssl c) (c_timeout c) (c_headers c) b (c_no_pacts_is_error c) (c_publish c) (c_state_url c) (c_teardown c) (c_state_body c).
Definition with_no_pacts (c : config) (b : bool) : config :=
  mkConfig (c_provider c) (c_sources c) (c_filter c) (c_consumers c) (c_no_ssl c) (c_timeout c) (c_headers c) (c_coloured c) b (c_publish c) (c_state_url c) (c_teardown c) (c_state_body c).
Definition with_publish (c : config) (p : publish_options) : config :=
  mkConfig (c_provider c) (c_sources c) (c_filter c) (c_consumers c) (c_no_ssl c) (c_timeout c) (c_headers c) (c_coloured c) (c_no_pacts_is_error c) (Some p) (c_state_url c) (c_teardown c) (c_state_body c).
Definition with_state (c : config) (url : option str) (teardown body : bool) : config :=
  mkConfig (c_provider c) (c_sources c) (c_filter c) (c_consumers c) (c_no_ssl c) (c_timeout c) (c_headers c) (c_coloured c) (c_no_pacts_is_error c) (c_publish c) url teardown body.

(** handle.rs:90-113 [update_provider_info]. *)
Definition provider_set (name scheme host : str) (port : N) (path : str) : provider_info :=
  let port := if port =? 0 then None else Some port in
  mkProvider name scheme host port path
    [mkTransport scheme port (present path) (present scheme)].
(** 71-87 [add_transport]. *)
Definition add_transport (p : provider_info) (t : transport) : provider_info :=
  mkProvider (p_name p) (p_protocol p) (p_host p) (p_port p) (p_path p) (p_transports p ++ [t]).

(** A call with a handle that is not NULL (with NULL nothing happens and the value for failure is returned): the handle after it, and
    what is returned; [None] for the functions without a value. mod.rs:148-650. *)
Definition status := option Z.
Definition settle (h : handle) (c : config) : handle := mkHandle c (vh_app h) (vh_report h).
Definition need (s : cstr) (h : handle) (failed : status) (f : str -> handle * status) : handle * status :=
  match safe_str s with Some t => f t | None => (h, failed) end.
Definition broker (h : handle) (url : str) (pending : bool) (wip_since : option str) (tags : list str) (branch : option str) (selectors : list selector) (auth : option http_auth) : handle :=
  settle h (with_source (vh_config h) (SrcBroker (p_name (c_provider (vh_config h))) url pending wip_since tags branch selectors auth)).
(** mod.rs:606-625. *)
Definition read_selectors (l : list str) : option (list selector) :=
  option_map json_to_selectors (all_some (map parse_json l)).
(** handle.rs:281-315 [execute]. *)
Definition execute (h : handle) (run : config -> report + str) : handle * status :=
  match run (vh_config h) with
  | inl r => (mkHandle (vh_config h) (vh_app h) r, Some (if rp_result r then 0 else 1)%Z)
  | inr e =>
      let r := vh_report h in
      (mkHandle (vh_config h) (vh_app h)
         (mkReport (rp_result r) (rp_notices r) (rp_output r ++ [S_ "Verification execution failed: " ++ e]) (rp_pending r) (rp_errors r)), Some 2%Z)
  end.
Definition step (h : handle) (c : call) : handle * status :=
  let cfg := vh_config h in
  match c with
  | CSetProviderInfo name scheme host port path =>
      (settle h (with_provider cfg (provider_set (if_null name (S_ "provider")) (if_null scheme (S_ "http")) (if_null host (S_ "localhost")) port (if_null path (S_ "/")))), None)
  | CAddTransport protocol port path scheme =>
      (settle h (with_provider cfg (add_transport (c_provider cfg)
         (mkTransport (if_null protocol []) (Some port) (present (if_null path (S_ "/"))) (optional_str scheme)))), None)
  | CSetFilterInfo description state no_state => (settle h (with_filter cfg (filter_of (if_null description []) (if_null state []) (flag no_state))), None)
  | CSetProviderState url teardown body =>
      (settle h (with_state cfg (present (if_null url [])) (flag teardown) (flag body)), None)
  | CSetVerificationOptions disable timeout => (settle h (with_options cfg (flag disable) timeout), Some 0%Z)
  | CSetColouredOutput b => (settle h (with_coloured cfg (flag b)), Some 0%Z)
  | CSetNoPactsIsError b => (settle h (with_no_pacts cfg (flag b)), Some 0%Z)
  | CSetPublishOptions version build_url tags branch =>
      need version h (Some 1%Z) (fun v => (settle h (with_publish cfg (mkPublish (Some v) (optional_str build_url) (get_vector tags) (optional_str branch))), Some 0%Z))
  | CSetConsumerFilters l => (settle h (with_consumers cfg (get_vector l)), None)
  | CAddCustomHeader name value => need name h None (fun n => need value h None (fun v => (settle h (with_header cfg n v), None)))
  | CAddFileSource f => need f h None (fun f => (settle h (with_source cfg (SrcFile f)), None))
  | CAddDirectorySource d => need d h None (fun d => (settle h (with_source cfg (SrcDir d)), None))
  | CUrlSource url u p t => need url h None (fun url => (settle h (with_source cfg (SrcUrl url (auth_of u p t))), None))
  | CBrokerSource url u p t => need url h None (fun url => (broker h url false None [] None [] (auth_of u p t), None))
  | CBrokerSourceWithSelectors url u p t pending wip tags branch selectors consumer_tags =>
      need url h (Some (-2)%Z) (fun url =>
      let go branch :=
        let wip := present (if_null wip []) in
        match get_vector selectors with
        | [] => (broker h url (flag pending) wip (get_vector tags) branch (map tag_selector (get_vector consumer_tags)) (auth_of u p t), Some 0%Z)
        | l => match read_selectors l with
               | Some s => (broker h url (flag pending) wip (get_vector tags) branch s (auth_of u p t), Some 0%Z)
               | None => (h, Some (-1)%Z)
               end
        end in
      match branch with
      | None => go None
      | Some _ => need branch h (Some (-2)%Z) (fun b => go (Some b))
      end)
  | CExecute run => execute h run
  end.
(** 36-63 [new], [new_for_application]. *)
Definition new_handle (app : option (str * str)) : handle := mkHandle default_config app new_report.
Definition run_calls (h : handle) (cs : list call) : handle := fold_left (fun h c => fst (step h c)) cs h.

(** *** The texts returned *)
(** mod.rs:879-881 [ANSI_CODE_RE]: \x1B\[(?:;?[0-9]{1,3})+[mGK]. Digits in groups of three without a separator make any number of
    digits, so this is: each [;] is followed by a digit, and there is a digit. *)
Fixpoint code_body (s : str) : option str := (* after at least one digit: what follows the code *)
  match s with
  | [] => None
  | c :: s' =>
      if is_digit c then code_body s'
      else if c =? 59 then match s' with d :: s'' => if is_digit d then code_body s'' else None | [] => None end
      else if (c =? 109) || (c =? 71) || (c =? 75) then Some s' else None
  end.
Definition code_start (s : str) : option str := (* after ESC [ *)
  match s with
  | c :: s' =>
      if is_digit c then code_body s'
      else if c =? 59 then match s' with d :: s'' => if is_digit d then code_body s'' else None | [] => None end
      else None
  | [] => None
  end.
Definition ansi_code (s : str) : option str :=
  match s with
  | a :: b :: s' => if (a =? 27) && (b =? 91) then code_start s' else None
  | _ => None
  end.
(** Regex::replace_all with nothing; the fuel is the length. *)
Fixpoint strip_codes (fuel : nat) (s : str) : str :=
  match fuel with
  | O => []
  | Datatypes.S f =>
      match s with
      | [] => []
      | c :: s' => match ansi_code s with Some rest => strip_codes f rest | None => c :: strip_codes f s' end
      end
  end.
Definition strip_ansi (s : str) : str := strip_codes (length s) s.
(** handle.rs:318-320 [output], mod.rs:883-906 [pactffi_verifier_output]: NULL if a zero is in the text (the panic is caught). *)
Definition c_string (s : str) : option str := if existsb (N.eqb 0) s then None else Some s.
Definition verifier_output (h : handle) (strip : N) : option str :=
  let raw := join_with [10] (rp_output (vh_report h)) in c_string (if flag strip then strip_ansi raw else raw).
(** handle.rs:323-326 [json], before printing. *)
Definition verifier_json (h : handle) : json := report_json (vh_report h).
End Calls.

(** ** The command line *)
(** What clap gives (pact_verifier_cli/src/args.rs; not modelled: parsing the command line). [o_transports]: name, port, base path. *)
Record options := mkOptions {
  o_files : list str; o_dirs : list str; o_urls : list str; o_broker_url : option str; o_webhook_url : option str;
  o_user : option str; o_password : option str; o_token : option str;
  o_hostname : option str; o_port : option N; o_transport : option str; o_transports : list (str * N * option str); o_provider_name : option str; o_base_path : option str;
  o_state_url : option str; o_state_as_query : bool; o_state_teardown : bool;
  o_filter_description : option str; o_filter_state : option str; o_filter_no_state : bool; o_filter_consumers : list str;
  o_publish : bool; o_provider_version : option str; o_build_url : option str; o_provider_tags : list str; o_provider_branch : option str;
  o_selectors : option (list json); o_consumer_tags : option (list str); o_pending : bool; o_wip_since : option str;
  o_no_ssl : bool; o_timeout : option N; o_custom_headers : list str; o_no_colour : bool; o_ignore_no_pacts : bool;
  o_json_file : option str; o_junit_file : option str }.
(** main.rs:644-721 [pact_source]; [None]: panic. *)
Definition cli_auth (o : options) : option http_auth :=
  match o_user o with
  | Some u => Some (AUser u (o_password o))
  | None => option_map AToken (o_token o)
  end.
Definition cli_sources (o : options) : option (list source) :=
  match o_webhook_url o with
  | Some u => option_map (fun b => [SrcWebhook u b (cli_auth o)]) (o_broker_url o)
  | None =>
      Some (map SrcFile (o_files o) ++ map SrcDir (o_dirs o) ++ map (fun u => SrcUrl u (cli_auth o)) (o_urls o) ++
        match o_broker_url o with
        | None => []
        | Some url =>
            let name := or_nothing (o_provider_name o) in
            match o_selectors o, o_consumer_tags o with
            | Some l, _ => [SrcBroker name url (o_pending o) (o_wip_since o) (o_provider_tags o) (o_provider_branch o) (json_to_selectors l) (cli_auth o)]
            | None, Some tags => [SrcBroker name url (o_pending o) (o_wip_since o) (o_provider_tags o) (o_provider_branch o) (map tag_selector tags) (cli_auth o)]
            | None, None => [SrcBrokerUrl name url (cli_auth o)]
            end
        end)
  end.
(** main.rs:723-742 [interaction_filter]. *)
Definition cli_filter (o : options) : filter_info :=
  match o_filter_description o, o_filter_state o, o_filter_no_state o with
  | Some d, Some s, _ => FDescriptionAndState d s
  | Some d, None, true => FDescriptionAndState d []
  | Some d, None, false => FDescription d
  | None, Some s, _ => FState s
  | None, None, true => FState []
  | None, None, false => FNone
  end.
(** main.rs:614-636 [configure_provider]. *)
Definition or_else_text (o : option str) (d : str) : str := match o with Some s => s | None => d end.
Definition cli_provider (o : options) : provider_info :=
  mkProvider (or_else_text (o_provider_name o) (S_ "provider")) (or_else_text (o_transport o) (S_ "http")) (or_else_text (o_hostname o) (S_ "localhost")) (o_port o)
    (or_nothing (o_base_path o)) (map (fun t => mkTransport (fst (fst t)) (Some (snd (fst t))) (snd t) None) (o_transports o)).
(** main.rs:470-479: a header without "=" ends the program with 3. *)
Fixpoint cli_headers (l : list str) (m : list (str * str)) : option (list (str * str)) :=
  match l with
  | [] => Some m
  | s :: l' => match split_once 61 s with Some (k, v) => cli_headers l' (obj_insert k v m) | None => None end
  end.
Definition cli_config (o : options) (sources : list source) (headers : list (str * str)) : config :=
  mkConfig (cli_provider o) sources (cli_filter o) (o_filter_consumers o) (o_no_ssl o) (match o_timeout o with Some t => t | None => 5000 end) headers
    (negb (o_no_colour o)) (negb (o_ignore_no_pacts o))
    (if o_publish o then Some (mkPublish (o_provider_version o) (o_build_url o) (o_provider_tags o) (o_provider_branch o)) else None)
    (o_state_url o) (o_state_teardown o) (negb (o_state_as_query o)).
(** main.rs:456-546 [handle_matches] and [main]: the exit code; [written]: whether the report file of a name can be written.
    [None]: panic. The junit feature is enabled. *)
Definition cli_run (o : options) (run : config -> report + str) (written : str -> report -> bool) : option N :=
  match cli_sources o with
  | None => None
  | Some sources =>
      match cli_headers (o_custom_headers o) [] with
      | None => Some 3
      | Some headers =>
          match run (cli_config o sources headers) with
          | inr _ => Some 2
          | inl r =>
              if match o_json_file o with Some f => negb (written f r) | None => false end then Some 2
              else if match o_junit_file o with Some f => negb (written f r) | None => false end then Some 2
              else Some (if rp_result r then 0 else 1)
          end
      end
  end.
