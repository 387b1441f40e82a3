(** Specification of a provider verification: which interactions are verified, what the provider and the handlers of
    its states see, and what is reported. *)
From Coq Require Import String List NArith Bool.
From Verif Require Import Base PathExp Json MatchingRules Matchers Headers Query ContentType JsonCompare Http Merge VerifierClient Verifier.
Import ListNotations.
Open Scope N_scope.

(** * Filters *)
(** The empty pattern asks for interactions without a state. *)
Definition state_wanted (w : world) (pattern : str) (i : interaction) : Prop :=
  (pattern = [] /\ i_states i = []) \/
  (pattern <> [] /\ exists s, In s (i_states i) /\ regex_match w pattern (st_name s) = Some true).
Definition description_wanted (w : world) (pattern : str) (i : interaction) : Prop :=
  regex_match w pattern (i_desc i) = Some true.
Definition selected (w : world) (f : filter_info) (i : interaction) : Prop :=
  match f with
  | FNone => True
  | FDescription d => description_wanted w d i
  | FState s => state_wanted w s i
  | FDescriptionAndState d s => description_wanted w d i /\ state_wanted w s i
  end.
(** A pattern the regular expression engine reads or refuses, whatever the text. *)
Definition pattern_ok (w : world) (p : str) : Prop := forall t, regex_match w p t <> None.
Definition pattern_bad (w : world) (p : str) : Prop := forall t, regex_match w p t = None.
Definition filter_ok (w : world) (f : filter_info) : Prop :=
  match f with
  | FNone => True
  | FDescription d => pattern_ok w d
  | FState s => pattern_ok w s
  | FDescriptionAndState d s => pattern_ok w d /\ pattern_ok w s
  end.

(** [kept] are the elements of a list with a property, in order. *)
Inductive picked {A} (P : A -> Prop) : list A -> list A -> Prop :=
| picked_nil : picked P [] []
| picked_yes a l l' : P a -> picked P l l' -> picked P (a :: l) (a :: l')
| picked_no a l l' : ~ P a -> picked P l l' -> picked P (a :: l) l'.

(** * One interaction *)
(** The states the handlers are called for: one without a name if the interaction has none. *)
Definition handled_states (i : interaction) : list pstate :=
  match i_states i with [] => [mkState [] []] | l => l end.
Definition calls (i : interaction) (setup : bool) : list event :=
  map (fun s => EState (i_id i) s setup) (handled_states i).
(** What the handler answers on the calls for the interaction, one after the other. *)
Definition handler_answers (env : environment) (i : interaction) (setup : bool) (h : list event)
    (answers : list (option (list (str * json)))) : Prop :=
  length answers = length (handled_states i) /\
  forall k s, nth_error (handled_states i) k = Some s ->
    nth_error answers k = Some (handler env (h ++ firstn k (calls i setup)) (i_id i) s setup).
(** The last entry of a name. *)
Fixpoint last_entry {A} (k : str) (l : list (str * A)) : option A :=
  match l with
  | [] => None
  | (k', v) :: l' => match last_entry k l' with
                     | Some v' => Some v'
                     | None => if str_eqb k k' then Some v else None
                     end
  end.
(** The values for the generators: the parameters of the states, and over them what the handlers answered. *)
Definition context_for (i : interaction) (answers : list (list (str * json))) (context : list (str * json)) : Prop :=
  forall k, obj_get k context = last_entry k (flat_map st_params (i_states i) ++ concat answers).

(** One request [r] through the transport [t], as the provider sees it; no events and no answer when it cannot be written.
    [answer]: what came back. *)
Definition asked (w : world) (x : externals) (cx : client_externals) (env : environment) (st : settings)
    (defaults : list (str * str)) (t : option transport) (r : request) (h evs : list event) (answer : option response) : Prop :=
  let r := match s_filter st with Some f => f r | None => r end in
  match create_native_request w x cx (target_url (s_provider st) t) r (s_custom st) with
  | None => evs = [] /\ answer = None
  | Some n => exists n', n' = with_defaults defaults n /\ evs = [ESend n'] /\ answer = option_map (pact_response w x) (provider_answer env h n')
  end.
(** What a comparison decides. *)
Definition decided (id : option str) (ms : list request_mismatch) (r : option mismatch_result) : Prop :=
  (ms = [] /\ r = None) \/ (ms <> [] /\ r = Some (RMismatches ms id)).

(** The interaction is put to the provider. *)
Inductive checked (w : world) (x : externals) (cx : client_externals) (env : environment) (st : settings) (defaults : list (str * str))
    (context : list (str * json)) (h : list event) : interaction -> list event -> option mismatch_result -> Prop :=
| chk_http i v q p evs answer r :
    as_v4 i = Some v -> v_payload v = SyncHttp q p ->
    asked w x cx env st defaults (find_transport (wanted_transport (x_transport (v_extra v)) [S_ "http"]) (s_provider st))
      (s_generate st v q context) h evs answer ->
    (forall a, answer = Some a -> exists ms, match_response w x p a = Ok ms /\ decided (i_id i) ms r) ->
    (answer = None -> r = Some (RError KindRequest (i_id i))) ->
    checked w x cx env st defaults context h i evs r
| chk_message i e evs answer r :
    as_message i = Some e ->
    asked w x cx env st defaults (find_transport (wanted_transport (i_transport i) [S_ "message"; S_ "async-message"]) (s_provider st))
      (message_request w (message_request_json (i_desc i) (i_states i) None)) h evs answer ->
    (forall a, answer = Some a -> exists ms,
       match_message w x (m_body e) (mkMsg (resp_body a) (extract_metadata w cx a) []) = Ok ms /\ decided (i_id i) ms r) ->
    (answer = None -> r = Some (RError KindRequest (i_id i))) ->
    checked w x cx env st defaults context h i evs r
| chk_sync v q ps evs answer r :
    v_payload v = SyncMessage q ps ->
    asked w x cx env st defaults (find_transport (wanted_transport (x_transport (v_extra v)) [S_ "message"; S_ "sync-message"]) (s_provider st))
      (message_request w (message_request_json (v_desc v) (v_states v) (Some (s_contents_json st q)))) h evs answer ->
    (forall a, answer = Some a -> resp_status a < 400 -> exists ms,
       match_sync_responses w x ps [mkMsg (resp_body a) (extract_metadata w cx a) []] = Ok ms /\ decided (v_id v) ms r) ->
    (forall a, answer = Some a -> 400 <= resp_status a -> r = Some (RError (KindStatus (resp_status a)) (v_id v))) ->
    (answer = None -> r = Some (RError KindRequest (v_id v))) ->
    checked w x cx env st defaults context h (IV4 v) evs r.

(** One interaction, from the events [h] so far; it adds the events [evs] and gives [r]. *)
Inductive interaction_verified (w : world) (x : externals) (cx : client_externals) (env : environment) (st : settings)
    (i : interaction) (h : list event) : list event -> option mismatch_result -> Prop :=
| iv_no_client :
    s_builds st = false \/ default_headers cx (s_custom st) = None ->
    interaction_verified w x cx env st i h [] (Some (RError KindClient (i_id i)))
| iv_setup_failed defaults answers :
    s_builds st = true -> default_headers cx (s_custom st) = Some defaults ->
    handler_answers env i true h answers -> In None answers ->
    interaction_verified w x cx env st i h (calls i true) (Some (RError KindSetup (i_id i)))
| iv_no_teardown defaults answers context evs r :
    s_builds st = true -> default_headers cx (s_custom st) = Some defaults ->
    handler_answers env i true h (map Some answers) -> context_for i answers context ->
    checked w x cx env st defaults context (h ++ calls i true) i evs r -> s_teardown st = false ->
    interaction_verified w x cx env st i h (calls i true ++ evs) r
| iv_teardown defaults answers context evs r answers' :
    s_builds st = true -> default_headers cx (s_custom st) = Some defaults ->
    handler_answers env i true h (map Some answers) -> context_for i answers context ->
    checked w x cx env st defaults context (h ++ calls i true) i evs r -> s_teardown st = true ->
    handler_answers env i false (h ++ calls i true ++ evs) answers' ->
    interaction_verified w x cx env st i h (calls i true ++ evs ++ calls i false)
      (if existsb (fun a => match a with None => true | Some _ => false end) answers' then Some (RError KindTeardown (i_id i)) else r).

(** * Pacts *)
(** What is reported about an interaction besides its result. *)
Definition reported (who : participants) (pending : bool) (i : interaction) (r : interaction_result) : Prop :=
  ir_id r = i_id i /\ ir_key r = i_key i /\ ir_interaction r = i_desc i /\ ir_description r = result_description who i /\
  ir_pending r = orb pending (i_pending i).
(** The interactions are verified one after the other. *)
Inductive verified_in_turn (w : world) (x : externals) (cx : client_externals) (env : environment) (st : settings)
    : list event -> list interaction -> list event -> list (option mismatch_result) -> Prop :=
| vt_nil h : verified_in_turn w x cx env st h [] [] []
| vt_cons h i l evs evs' r rs :
    interaction_verified w x cx env st i h evs r -> verified_in_turn w x cx env st (h ++ evs) l evs' rs ->
    verified_in_turn w x cx env st h (i :: l) (evs ++ evs') (r :: rs).
(** One pact: the selected interactions, and then, if asked for and possible, the results go to the broker. *)
Definition is_broker (s : pact_source) : bool := match s with SBroker _ => true | SOther => false end.
Definition pact_verified (w : world) (x : externals) (cx : client_externals) (env : environment) (st : settings)
    (f : filter_info) (publishing : bool) (p : loaded_pact) (h evs : list event) (rs : list interaction_result) : Prop :=
  exists kept evs1,
    picked (selected w f) (lp_interactions p) kept /\
    verified_in_turn w x cx env st h kept evs1 (map ir_result rs) /\
    Forall2 (reported (lp_who p) (match lp_pending p with Some b => b | None => false end)) kept rs /\
    evs = evs1 ++ (if publishing && nonempty (lp_interactions p) && is_broker (lp_source p) then [EPublish (lp_source p) rs] else []).
(** All pacts in order; what could not be loaded has no events and no results. *)
Inductive pacts_verified (w : world) (x : externals) (cx : client_externals) (env : environment) (st : settings)
    (f : filter_info) (publishing : bool) : list event -> list load -> list event -> list (load * list interaction_result) -> Prop :=
| pv_nil h : pacts_verified w x cx env st f publishing h [] [] []
| pv_pact h p l evs evs' rs all :
    pact_verified w x cx env st f publishing p h evs rs ->
    pacts_verified w x cx env st f publishing (h ++ evs) l evs' all ->
    pacts_verified w x cx env st f publishing h (Loaded p :: l) (evs ++ evs') ((Loaded p, rs) :: all)
| pv_failed h nf l evs all :
    pacts_verified w x cx env st f publishing h l evs all ->
    pacts_verified w x cx env st f publishing h (LoadError nf :: l) evs ((LoadError nf, []) :: all).

(** The failures that count: pacts that could not be loaded, except that there may be none, and interactions that are not pending. *)
Definition counted (no_pacts_is_error : bool) (a : load * list interaction_result) : list (str * mismatch_result) :=
  match fst a with
  | LoadError nf => if nf && negb no_pacts_is_error then [] else [(S_ "Failed to load pact", RError KindLoad None)]
  | Loaded _ => flat_map (fun r => match ir_result r with
                                   | Some e => if ir_pending r then [] else [(ir_description r, e)]
                                   | None => []
                                   end) (snd a)
  end.
Definition not_counted (a : load * list interaction_result) : list (str * mismatch_result) :=
  flat_map (fun r => match ir_result r with
                     | Some e => if ir_pending r then [(ir_description r, e)] else []
                     | None => []
                     end) (snd a).
(** The pacts asked for. *)
Definition consumer_wanted (consumers : list str) (r : load) : Prop :=
  consumers = [] \/ match r with LoadError _ => True | Loaded p => In (consumer (lp_who p)) consumers end.

(** * Publishing and notices *)
(** The texts of the notices of a pact for a stage. *)
Definition texts_for (stage : str) (p : loaded_pact) : list str :=
  match lp_pending p with
  | None => []
  | Some _ => flat_map (fun n => match obj_get (S_ "when") n with
                                 | Some t => if str_eqb t stage then [match obj_get (S_ "text") n with Some s => s | None => [] end] else []
                                 | None => []
                                 end) (lp_notices p)
  end.
Definition none {A} (l : list A) : bool := match l with [] => true | _ => false end.
(** The stage after the verification of a pact; [errors] and [pending]: the failures so far, those of earlier pacts too.
    Without publishing the stage is that of a success only if there are failures, all of them pending. *)
Definition stage_after (publishing : bool) {A} (errors pending : list A) : str :=
  if publishing then
    if none errors && none pending then S_ "after_verification:success_true_published_true"
    else S_ "after_verification:success_false_published_true"
  else
    if none errors && negb (none pending) then S_ "after_verification:success_true_published_false"
    else S_ "after_verification:success_false_published_false".
Fixpoint notices_shown (no_pacts_is_error publishing : bool) (earlier all : list (load * list interaction_result)) : list str :=
  match all with
  | [] => []
  | a :: all' =>
      (match fst a with
       | Loaded p =>
           texts_for (S_ "before_verification") p ++
           (if none (lp_interactions p) then []
            else texts_for (stage_after publishing (flat_map (counted no_pacts_is_error) (earlier ++ [a])) (flat_map not_counted (earlier ++ [a]))) p)
       | LoadError _ => []
       end) ++ notices_shown no_pacts_is_error publishing (earlier ++ [a]) all'
  end.
(** What goes to the broker about a pact. *)
Definition is_publish (e : event) : bool := match e with EPublish _ _ => true | _ => false end.
Definition to_publish (publishing : bool) (a : load * list interaction_result) : list event :=
  match fst a with
  | Loaded p => if publishing && is_broker (lp_source p) && negb (none (lp_interactions p)) then [EPublish (lp_source p) (snd a)] else []
  | LoadError _ => []
  end.
