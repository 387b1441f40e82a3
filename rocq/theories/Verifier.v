(** Model of rust/pact_verifier/src/lib.rs and messages.rs: which interactions of which pacts are verified, in which
    order state change handlers and the provider are called, and what follows from the answers.

    Everything outside (handlers, provider, broker) is an environment whose answers may depend on all that happened
    before. Plugins, output for the console, durations and metrics are not modelled; the text of an error is only its kind. *)
From Coq Require Import Ascii String List Arith NArith ZArith Lia Bool.
From Verif Require Import Base PathExp Json Text MatchingRules Matchers JsonCompare Headers Query ContentType Http Merge VerifierClient.
Import ListNotations.
Open Scope N_scope.

(** * Filters *)
(** lib.rs:787-796 [enum FilterInfo]. *)
Inductive filter_info :=
| FNone | FDescription (d : str) | FState (s : str) | FDescriptionAndState (d s : str).
(** 800-834. *)
Definition has_description (f : filter_info) : bool :=
  match f with FDescription _ | FDescriptionAndState _ _ => true | _ => false end.
Definition has_state (f : filter_info) : bool :=
  match f with FState _ | FDescriptionAndState _ _ => true | _ => false end.
Definition f_state (f : filter_info) : str := match f with FState s | FDescriptionAndState _ s => s | _ => [] end.
Definition f_description (f : filter_info) : str := match f with FDescription d | FDescriptionAndState d _ => d | _ => [] end.

Section Filter.
Variable w : world.
(** [Regex::new(pattern).unwrap().is_match(text)]. *)
Definition is_match (pattern text : str) : outcome bool unit :=
  match regex_match w pattern text with Some b => Ok b | None => Panic end.
Fixpoint any_match (pattern : str) (l : list str) : outcome bool unit :=
  match l with
  | [] => Ok false
  | t :: l' => bind (is_match pattern t) (fun b => if b then Ok true else any_match pattern l')
  end.
(** 836-851 [match_state]; 853-861 [match_description]. *)
Definition match_state (f : filter_info) (i : interaction) : outcome bool unit :=
  if nonempty (i_states i) then
    if nonempty (f_state f) then any_match (f_state f) (names (i_states i)) else Ok false
  else Ok (has_state f && negb (nonempty (f_state f))).
Definition match_description (f : filter_info) (i : interaction) : outcome bool unit :=
  is_match (f_description f) (i_desc i).
(** 864-874 [filter_interaction]. *)
Definition filter_interaction (f : filter_info) (i : interaction) : outcome bool unit :=
  if has_description f && has_state f then
    bind (match_description f i) (fun b => if b then match_state f i else Ok false)
  else if has_description f then match_description f i
  else if has_state f then match_state f i
  else Ok true.
End Filter.

(** * Verifying one interaction *)
(** What the verifier does outside: a call of the state change handler, a request to the provider,
    the results given to a broker. *)
Inductive error_kind := KindClient | KindSetup | KindTeardown | KindRequest | KindStatus (s : N) | KindNothing | KindLoad.
Inductive mismatch_result :=
| RMismatches (ms : list request_mismatch) (id : option str)
| RError (k : error_kind) (id : option str).
(** verification_result.rs:13-29 [VerificationInteractionResult]; [None] is success. *)
Record interaction_result := mkIR { ir_id : option str; ir_key : option str; ir_description : str;
  ir_interaction : str; ir_result : option mismatch_result; ir_pending : bool }.
(** lib.rs:84-127 [enum PactSource], as far as publishing depends on it. *)
Inductive pact_source := SBroker (url : str) | SOther.

Inductive event :=
| EState (id : option str) (s : pstate) (setup : bool)
| ESend (n : native)
| EPublish (s : pact_source) (rs : list interaction_result).

Record environment := mkEnv {
  handler : list event -> option str -> pstate -> bool -> option (list (str * json)); (* None: it failed *)
  provider_answer : list event -> native -> option native_response }.

(** A computation that adds to the events so far; a panic ends everything. *)
Definition run (A : Type) := list event -> outcome (A * list event) unit.
Definition rbind {A B} (m : run A) (f : A -> run B) : run B := fun h => bind (m h) (fun r => f (fst r) (snd r)).
Definition rret {A} (a : A) : run A := fun h => Ok (a, h).

(** What the verifier is given: VerificationOptions (907-922), the executor, and, for an interaction and a
    context, the request after its generators ([pact_matching::generate_request] in mode Provider). *)
Record settings := mkSettings {
  s_provider : provider_info;
  s_custom : list (str * str);
  s_filter : option (request -> request);
  s_teardown : bool;
  s_builds : bool; (* reqwest::ClientBuilder::build().is_ok() *)
  s_generate : v4i -> request -> list (str * json) -> request;
  s_contents_json : message -> json (* MessageContents::to_json *) }.

Definition i_id (i : interaction) : option str :=
  match i with IHttp r => rr_id r | IMsg m => m_id m | IV4 v => v_id v end.
Definition i_pending (i : interaction) : bool := match i with IV4 v => x_pending (v_extra v) | _ => false end.
(** [as_v4().key()] of a V4 interaction. *)
Definition i_key (i : interaction) : option str := match i with IV4 v => v_key v | _ => None end.
(** The transport a V4 interaction names; other interactions name none. *)
Definition i_transport (i : interaction) : option str := match i with IV4 v => x_transport (v_extra v) | _ => None end.

Section Verify.
Variable w : world.
Variable x : externals.
Variable cx : client_externals.
Variable env : environment.
Variable st : settings.

(** 389-406 [execute_state_change]. *)
Definition execute_state_change (id : option str) (s : pstate) (setup : bool) : run (option (list (str * json))) := fun h =>
  Ok (handler env h id s setup, h ++ [EState id s setup]).
(** 633-686 [execute_provider_states]: all handlers are called, also after one failed. *)
Fixpoint call_handlers (id : option str) (setup : bool) (l : list pstate) : run (list (option (list (str * json)))) :=
  match l with
  | [] => rret []
  | s :: l' => rbind (execute_state_change id s setup) (fun r =>
               rbind (call_handlers id setup l') (fun rs => rret (r :: rs)))
  end.
Definition states_or_default (i : interaction) : list pstate :=
  match i_states i with [] => [mkState [] []] | l => l end.
Definition execute_provider_states (i : interaction) (setup : bool) : run (option (list (str * json))) :=
  rbind (call_handlers (i_id i) setup (states_or_default i)) (fun rs =>
    rret (match all_some rs with
          | Some maps => Some (fold_left (fun m l => insert_all_json l m) maps [])
          | None => None
          end)).

(** provider_client.rs:191-231 [make_provider_request]. *)
Definition make_provider_request (r : request) (t : option transport) (defaults : list (str * str)) : run (option response) := fun h =>
  let r := match s_filter st with Some f => f r | None => r end in
  match create_native_request w x cx (target_url (s_provider st) t) r (s_custom st) with
  | None => Ok (None, h)
  | Some n =>
      let n := with_defaults defaults n in
      Ok (option_map (pact_response w x) (provider_answer env h n), h ++ [ESend n])
  end.

Definition verdict (id : option str) (ms : outcome (list request_mismatch) unit) : outcome (option mismatch_result) unit :=
  bind ms (fun ms => Ok (match ms with [] => None | _ => Some (RMismatches ms id) end)).
Definition lift {A} (o : outcome A unit) : run A := fun h => bind o (fun a => Ok (a, h)).

(** 338-386 [verify_response_from_provider]. *)
Definition wanted_transport (named : option str) (otherwise : list str) (t : str) : bool :=
  match named with Some n => str_eqb t n | None => existsb (str_eqb t) otherwise end.
Definition verify_http (v : v4i) (req : request) (resp : response) (context : list (str * json)) (defaults : list (str * str))
  : run (option mismatch_result) :=
  rbind (make_provider_request (s_generate st v req context)
           (find_transport (wanted_transport (x_transport (v_extra v)) [S_ "http"]) (s_provider st)) defaults) (fun a =>
    match a with
    | Some actual => lift (verdict (v_id v) (match_response w x resp actual))
    | None => rret (Some (RError KindRequest (v_id v)))
    end).

(** provider_states.rs:103-115 [to_json]; json! sorts the keys. *)
Definition state_json (s : pstate) : json :=
  JObj ((S_ "name", JStr (st_name s)) ::
        match st_params s with [] => [] | ps => [(S_ "params", JObj (insert_all_json ps []))] end).
Definition message_request_json (desc : str) (states : list pstate) (req : option json) : json :=
  JObj ([(S_ "description", JStr desc)] ++
        (match states with [] => [] | _ => [(S_ "providerStates", JArr (map state_json states))] end) ++
        (match req with Some j => [(S_ "request", j)] | None => [] end)).
(** messages.rs:46-54, 289-296. *)
Definition message_request (j : json) : request :=
  mkReq (S_ "POST") (S_ "/") None (Some [(S_ "Content-Type", [S_ "application/json"])])
        (BPresent (utf8 (json_show w j)) (Some (mkCT (S_ "application") (S_ "json") [] None)) None) [].

(** messages.rs:29-117 [verify_message_from_provider]; [e]: the expected message ([as_message]). *)
Definition verify_message (i : interaction) (e : msg) (defaults : list (str * str)) : run (option mismatch_result) :=
  rbind (make_provider_request (message_request (message_request_json (i_desc i) (i_states i) None))
           (find_transport (wanted_transport (i_transport i) [S_ "message"; S_ "async-message"]) (s_provider st)) defaults) (fun a =>
    match a with
    | Some actual =>
        lift (verdict (i_id i) (match_message w x (m_body e) (mkMsg (resp_body actual) (extract_metadata w cx actual) [])))
    | None => rret (Some (RError KindRequest (i_id i)))
    end).
(** messages.rs:271-362 [verify_sync_message_from_provider]; v4/http_parts.rs:569-571 [is_success]. *)
Definition verify_sync_message (v : v4i) (req : message) (resps : list message) (defaults : list (str * str)) : run (option mismatch_result) :=
  rbind (make_provider_request (message_request (message_request_json (v_desc v) (v_states v) (Some (s_contents_json st req))))
           (find_transport (wanted_transport (x_transport (v_extra v)) [S_ "message"; S_ "sync-message"]) (s_provider st)) defaults) (fun a =>
    match a with
    | Some actual =>
        if resp_status actual <? 400 then
          lift (verdict (v_id v) (match_sync_responses w x resps [mkMsg (resp_body actual) (extract_metadata w cx actual) []]))
        else rret (Some (RError (KindStatus (resp_status actual)) (v_id v)))
    | None => rret (Some (RError KindRequest (v_id v)))
    end).

(** 599-630 [verify_v3_interaction]. *)
Definition is_message (i : interaction) : bool :=
  match i with IMsg _ => true | IV4 v => match v_payload v with AsyncMessage _ => true | _ => false end | IHttp _ => false end.
Definition as_v4_http (i : interaction) : option (v4i * request * response) :=
  match as_v4 i with
  | Some v => match v_payload v with SyncHttp q p => Some (v, q, p) | _ => None end
  | None => None
  end.
Definition as_v4_sync_message (i : interaction) : option (v4i * message * list message) :=
  match i with
  | IV4 v => match v_payload v with SyncMessage q ps => Some (v, q, ps) | _ => None end
  | _ => None
  end.
Definition verify_v3_interaction (i : interaction) (context : list (str * json)) (defaults : list (str * str)) : run (option mismatch_result) :=
  rbind (match as_v4_http i with
         | Some (v, q, p) => verify_http v q p context defaults
         | None => rret (Some (RError KindNothing (i_id i)))
         end) (fun r =>
  rbind (if is_message i then
           match as_message i with Some e => verify_message i e defaults | None => fun _ => Panic end
         else rret r) (fun r =>
    match as_v4_sync_message i with
    | Some (v, q, ps) => verify_sync_message v q ps defaults
    | None => rret r
    end)).

(** 422-440: the parameters of the states, then what the handlers returned. *)
Definition state_context (i : interaction) (from_handlers : list (str * json)) : list (str * json) :=
  insert_all_json from_handlers (fold_left (fun m s => insert_all_json (st_params s) m) (i_states i) []).

(** 410-487 [verify_interaction], without plugins. *)
Definition verify_interaction (i : interaction) : run (option mismatch_result) :=
  match (if s_builds st then match s_custom st with [] => Some [] | c => default_headers cx c end else None) with
  | None => rret (Some (RError KindClient (i_id i)))
  | Some defaults =>
      rbind (execute_provider_states i true) (fun r =>
      match r with
      | None => rret (Some (RError KindSetup (i_id i)))
      | Some from_handlers =>
          rbind (verify_v3_interaction i (state_context i from_handlers) defaults) (fun result =>
          if s_teardown st then
            rbind (execute_provider_states i false) (fun r =>
              rret (match r with Some _ => result | None => Some (RError KindTeardown (i_id i)) end))
          else rret result)
      end)
  end.

(** * Verifying pacts *)
(** 1428-1451: the description of a result. *)
Definition result_description (who : participants) (i : interaction) : str :=
  S_ "Verifying a pact between " ++ consumer who ++ S_ " and " ++ provider who ++
  (match i_states i with
   | [] => []
   | s :: l => S_ " Given " ++ st_name s ++ flat_map (fun s => S_ " And " ++ st_name s) l
   end) ++ S_ " - " ++ i_desc i.
Record loaded_pact := mkLoaded { lp_who : participants; lp_interactions : list interaction;
  lp_pending : option bool;               (* PactVerificationContext: verification_properties.pending *)
  lp_notices : list (list (str * str));   (* and its notices *)
  lp_source : pact_source }.
(** 1399-1543 [verify_pact_internal]. *)
Fixpoint verify_interactions (f : filter_info) (who : participants) (pending : bool) (l : list interaction) : run (list interaction_result) :=
  match l with
  | [] => rret []
  | i :: l' =>
      rbind (lift (filter_interaction w f i)) (fun keep =>
      if keep then
        rbind (verify_interaction i) (fun r =>
        rbind (verify_interactions f who pending l') (fun rs =>
          rret (mkIR (i_id i) (i_key i) (result_description who i) (i_desc i) r (pending || i_pending i) :: rs)))
      else verify_interactions f who pending l')
  end.

(** verification_result.rs:39-56 [VerificationExecutionResult]; of the output only the notices. *)
Record execution := mkExec { e_errors : list (str * mismatch_result); e_pending : list (str * mismatch_result);
  e_results : list interaction_result; e_notices : list (list (str * str)); e_shown : list str }.
Definition execution_new : execution := mkExec [] [] [] [] [].
(** 943-954 [process_notices]. *)
Definition process_notices (p : loaded_pact) (stage : str) (e : execution) : execution :=
  match lp_pending p with
  | None => e
  | Some _ =>
      mkExec (e_errors e) (e_pending e) (e_results e) (lp_notices p)
        (e_shown e ++ flat_map (fun n => match obj_get (S_ "when") n with
                                         | Some t => if str_eqb t stage then [or_nothing (obj_get (S_ "text") n)] else []
                                         | None => []
                                         end) (lp_notices p))
  end.
Definition failures (pending : bool) (rs : list interaction_result) : list (str * mismatch_result) :=
  flat_map (fun r => match ir_result r with
                     | Some e => if Bool.eqb (ir_pending r) pending then [(ir_description r, e)] else []
                     | None => []
                     end) rs.
Definition before_verification : str := S_ "before_verification".
Definition after_stage (success published : bool) : str :=
  S_ "after_verification:success_" ++ (if success then S_ "true" else S_ "false") ++
  S_ "_published_" ++ (if published then S_ "true" else S_ "false").

(** 884-894 [PublishOptions]: only the version matters here. 1574-1600 [publish_result], 1603-1638 [publish_to_broker]:
    [provider_version.clone().unwrap()]. *)
Definition publish_result (version : option str) (s : pact_source) (rs : list interaction_result) : run unit := fun h =>
  match s with
  | SOther => Ok (tt, h)
  | SBroker _ => match version with Some _ => Ok (tt, h ++ [EPublish s rs]) | None => Panic end
  end.

(** 996-1107: one pact. [publish]: the options, with the version. *)
Definition verify_pact (f : filter_info) (publish : option (option str)) (p : loaded_pact) (e : execution) : run execution :=
  let e := process_notices p before_verification e in
  match lp_interactions p with
  | [] => rret e
  | _ =>
      rbind (verify_interactions f (lp_who p) (match lp_pending p with Some b => b | None => false end) (lp_interactions p)) (fun rs =>
        let e := mkExec (e_errors e ++ failures false rs) (e_pending e ++ failures true rs) (e_results e ++ rs) (e_notices e) (e_shown e) in
        match publish with
        | Some version =>
            rbind (publish_result version (lp_source p) rs) (fun _ =>
              rret (process_notices p (after_stage (negb (nonempty (e_errors e) || nonempty (e_pending e))) true) e))
        | None => rret (process_notices p (after_stage (negb (nonempty (e_errors e) || negb (nonempty (e_pending e)))) false) e)
        end)
  end.
(** [Err] of a pact that could not be loaded; [not_found]: the broker said so. *)
Inductive load := Loaded (p : loaded_pact) | LoadError (not_found : bool).
(** 1107-1122. *)
Definition load_failed (no_pacts_is_error not_found : bool) (e : execution) : execution :=
  if not_found && negb no_pacts_is_error then e
  else mkExec (e_errors e ++ [(S_ "Failed to load pact", RError KindLoad None)]) (e_pending e) (e_results e) (e_notices e) (e_shown e).
Fixpoint verify_pacts (f : filter_info) (publish : option (option str)) (no_pacts_is_error : bool) (l : list load) (e : execution) : run execution :=
  match l with
  | [] => rret e
  | Loaded p :: l' => rbind (verify_pact f publish p e) (fun e => verify_pacts f publish no_pacts_is_error l' e)
  | LoadError nf :: l' => verify_pacts f publish no_pacts_is_error l' (load_failed no_pacts_is_error nf e)
  end.
(** 876-881 [filter_consumers], 1380-1397 [fetch_pacts]: what the sources give, in order. *)
Definition filter_consumers (consumers : list str) (r : load) : bool :=
  negb (nonempty consumers) ||
  match r with LoadError _ => true | Loaded p => existsb (str_eqb (consumer (lp_who p))) consumers end.
Definition fetch_pacts (sources : list (list load)) (consumers : list str) : list load :=
  filter (filter_consumers consumers) (concat sources).
(** 979-1162 [verify_provider_async]: the overall result with what it rests on. *)
Definition verify_provider (f : filter_info) (consumers : list str) (publish : option (option str)) (no_pacts_is_error : bool)
    (sources : list (list load)) : run (bool * execution) :=
  rbind (verify_pacts f publish no_pacts_is_error (fetch_pacts sources consumers) execution_new) (fun e =>
    rret (negb (nonempty (e_errors e)), e)).
End Verify.

(** lib.rs:746-769 [walkdir]: a directory holds files (what reading each gives) and directories; [None] is a
    directory that cannot be listed. The pacts below a directory are read and dropped. *)
Inductive dir_entry (P : Type) := DFile (r : option P) | DDir (d : option (list (dir_entry P))).
Arguments DFile {P}. Arguments DDir {P}.
Section Walk.
Context {P : Type}.
Variable wanted : P -> bool. (* pact.provider().name == provider.name *)
Fixpoint walk_entry (e : dir_entry P) : option (list (option P)) :=
  match e with
  | DFile None => Some [None]
  | DFile (Some p) => Some (if wanted p then [Some p] else [])
  | DDir None => None
  | DDir (Some l) =>
      (fix go l := match l with
                   | [] => Some []
                   | e :: l' => match walk_entry e with
                                | Some _ => match go l' with Some _ => Some [] | None => None end
                                | None => None
                                end
                   end) l
  end.
Definition walkdir (d : option (list (dir_entry P))) : option (list (option P)) :=
  match d with
  | None => None
  | Some l => option_map (@concat _) (all_some (map walk_entry l))
  end.
End Walk.
