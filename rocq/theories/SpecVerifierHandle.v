(** Specification of the configuration of a verification run: what the calls of the FFI say and what they amount to. *)
From Coq Require Import Ascii String List Arith NArith ZArith Lia Bool.
From Verif Require Import Base PathExp Json Text MatchingRules VerifierClient Verifier SpecVerifier Broker VerifierHandle.
Import ListNotations.
Open Scope N_scope.

(** ** Arguments *)
Section Arguments.
Variable lossy : list N -> str.
(** The text of bytes: as UTF-8, else with replacement characters. *)
Definition reads (b : list N) (t : str) : Prop := from_utf8 b = Some t \/ (from_utf8 b = None /\ t = lossy b).
(** An optional argument: NULL and the empty text are no text. *)
Inductive arg : cstr -> option str -> Prop :=
| arg_null : arg None None
| arg_empty : forall b, reads b [] -> arg (Some b) None
| arg_text : forall b t, reads b t -> t <> [] -> arg (Some b) (Some t).
(** A list: NULL, or the texts of its elements that have one. *)
Inductive args : option (list cstr) -> list str -> Prop :=
| args_null : args None []
| args_end : args (Some []) []
| args_text : forall c t l ts, arg c (Some t) -> args (Some l) ts -> args (Some (c :: l)) (t :: ts)
| args_none : forall c l ts, arg c None -> args (Some l) ts -> args (Some (c :: l)) ts.
(** An argument that has to be a text. *)
Definition needed (c : cstr) (t : str) : Prop := exists b, c = Some b /\ from_utf8 b = Some t.
Definition unusable (c : cstr) : Prop := forall t, ~ needed c t.
(** User and password, or a token, or nothing. *)
Inductive auth : cstr -> cstr -> cstr -> option http_auth -> Prop :=
| auth_user : forall u p t name pw, arg u (Some name) -> arg p pw -> auth u p t (Some (AUser name pw))
| auth_token : forall u p t tok, arg u None -> arg t (Some tok) -> auth u p t (Some (AToken tok))
| auth_none : forall u p t, arg u None -> arg t None -> auth u p t None.
End Arguments.

(** ** What a call says *)
Inductive saying :=
| SayProvider (name scheme host : str) (port : option N) (path : str)
| SayTransport (t : transport)
| SayFilter (description state : option str) (no_state : bool)
| SayState (url : option str) (teardown body : bool)
| SayOptions (no_ssl : bool) (timeout : N)
| SayColoured (b : bool)
| SayNoPacts (b : bool)
| SayPublish (p : publish_options)
| SayConsumers (l : list str)
| SayHeader (name value : str)
| SaySource (s : source)
| SayBroker (url : str) (pending : bool) (wip_since : option str) (tags : list str) (branch : option str) (selectors : list selector) (a : option http_auth)
| SayNothing.
Definition text_or (o : option str) (d : str) : str := match o with Some t => t | None => d end.

Section Says.
Variable lossy : list N -> str.
Variable parse_json : str -> option json.
(** The selectors a list of documents gives: those that are selectors. *)
Inductive selectors_given : list json -> list selector -> Prop :=
| sg_end : selectors_given [] []
| sg_one : forall j s l ss, de_selector j = Some s -> selectors_given l ss -> selectors_given (j :: l) (s :: ss)
| sg_skip : forall j l ss, de_selector j = None -> selectors_given l ss -> selectors_given (j :: l) ss.
(** [says c s r]: the call says [s] and returns [r]. *)
Inductive says : call -> saying -> option Z -> Prop :=
| sy_provider : forall n s h port p n' s' h' p', arg lossy n n' -> arg lossy s s' -> arg lossy h h' -> arg lossy p p' ->
    says (CSetProviderInfo n s h port p)
         (SayProvider (text_or n' (S_ "provider")) (text_or s' (S_ "http")) (text_or h' (S_ "localhost")) (if port =? 0 then None else Some port) (text_or p' (S_ "/"))) None
| sy_transport : forall pr port p s pr' p' s', arg lossy pr pr' -> arg lossy p p' -> arg lossy s s' ->
    says (CAddTransport pr port p s) (SayTransport (mkTransport (text_or pr' []) (Some port) (Some (text_or p' (S_ "/"))) s')) None
| sy_filter : forall d s n d' s', arg lossy d d' -> arg lossy s s' -> says (CSetFilterInfo d s n) (SayFilter d' s' (negb (n =? 0))) None
| sy_state : forall u t b u', arg lossy u u' -> says (CSetProviderState u t b) (SayState u' (negb (t =? 0)) (negb (b =? 0))) None
| sy_options : forall d t, says (CSetVerificationOptions d t) (SayOptions (negb (d =? 0)) t) (Some 0%Z)
| sy_coloured : forall b, says (CSetColouredOutput b) (SayColoured (negb (b =? 0))) (Some 0%Z)
| sy_no_pacts : forall b, says (CSetNoPactsIsError b) (SayNoPacts (negb (b =? 0))) (Some 0%Z)
| sy_publish : forall v u ts b v' u' ts' b', needed v v' -> arg lossy u u' -> args lossy ts ts' -> arg lossy b b' ->
    says (CSetPublishOptions v u ts b) (SayPublish (mkPublish (Some v') u' ts' b')) (Some 0%Z)
| sy_publish_wrong : forall v u ts b, unusable v -> says (CSetPublishOptions v u ts b) SayNothing (Some 1%Z)
| sy_consumers : forall l l', args lossy l l' -> says (CSetConsumerFilters l) (SayConsumers l') None
| sy_header : forall n v n' v', needed n n' -> needed v v' -> says (CAddCustomHeader n v) (SayHeader n' v') None
| sy_header_wrong : forall n v, unusable n \/ unusable v -> says (CAddCustomHeader n v) SayNothing None
| sy_file : forall f f', needed f f' -> says (CAddFileSource f) (SaySource (SrcFile f')) None
| sy_file_wrong : forall f, unusable f -> says (CAddFileSource f) SayNothing None
| sy_dir : forall f f', needed f f' -> says (CAddDirectorySource f) (SaySource (SrcDir f')) None
| sy_dir_wrong : forall f, unusable f -> says (CAddDirectorySource f) SayNothing None
| sy_url : forall url u p t url' a, needed url url' -> auth lossy u p t a -> says (CUrlSource url u p t) (SaySource (SrcUrl url' a)) None
| sy_url_wrong : forall url u p t, unusable url -> says (CUrlSource url u p t) SayNothing None
| sy_broker : forall url u p t url' a, needed url url' -> auth lossy u p t a -> says (CBrokerSource url u p t) (SayBroker url' false None [] None [] a) None
| sy_broker_wrong : forall url u p t, unusable url -> says (CBrokerSource url u p t) SayNothing None
(** selectors come before tags; a selector that is not JSON makes the call fail; JSON that is no selector is left out *)
| sy_selectors : forall url u p t pe wip tags br sel ct url' a wip' tags' br' texts docs ss, needed url url' -> auth lossy u p t a -> arg lossy wip wip' -> args lossy tags tags' ->
    (br = None /\ br' = None \/ exists b, needed br b /\ br' = Some b) -> args lossy sel texts -> texts <> [] ->
    Forall2 (fun s j => parse_json s = Some j) texts docs -> selectors_given docs ss ->
    says (CBrokerSourceWithSelectors url u p t pe wip tags br sel ct) (SayBroker url' (negb (pe =? 0)) wip' tags' br' ss a) (Some 0%Z)
| sy_tags : forall url u p t pe wip tags br sel ct url' a wip' tags' br' ct', needed url url' -> auth lossy u p t a -> arg lossy wip wip' -> args lossy tags tags' ->
    (br = None /\ br' = None \/ exists b, needed br b /\ br' = Some b) -> args lossy sel [] -> args lossy ct ct' ->
    says (CBrokerSourceWithSelectors url u p t pe wip tags br sel ct)
         (SayBroker url' (negb (pe =? 0)) wip' tags' br' (map (fun tag => mkSelector None (Some tag) None (Some true) None None None None None None None None) ct') a) (Some 0%Z)
| sy_selectors_wrong : forall url u p t pe wip tags br sel ct texts, (exists x, needed url x) -> (br = None \/ exists b, needed br b) -> args lossy sel texts ->
    (exists s, In s texts /\ parse_json s = None) -> says (CBrokerSourceWithSelectors url u p t pe wip tags br sel ct) SayNothing (Some (-1)%Z)
| sy_selectors_text : forall url u p t pe wip tags br sel ct, unusable url \/ (br <> None /\ unusable br) ->
    says (CBrokerSourceWithSelectors url u p t pe wip tags br sel ct) SayNothing (Some (-2)%Z).
End Says.

(** ** What a history amounts to *)
(** The last that was said on a matter, or the value at the start. *)
Inductive setting {A} (on : saying -> option A) (start : A) : list saying -> A -> Prop :=
| set_last : forall l1 x l2 a, on x = Some a -> (forall y, In y l2 -> on y = None) -> setting on start (l1 ++ x :: l2) a
| set_never : forall l, (forall y, In y l -> on y = None) -> setting on start l start.
Definition wanted (description state : option str) (no_state : bool) : filter_info :=
  match description, state with
  | Some d, Some s => FDescriptionAndState d s
  | Some d, None => if no_state then FDescriptionAndState d [] else FDescription d
  | None, Some s => FState s
  | None, None => if no_state then FState [] else FNone
  end.
Definition on_filter (s : saying) := match s with SayFilter d t n => Some (wanted d t n) | _ => None end.
Definition on_consumers (s : saying) := match s with SayConsumers l => Some l | _ => None end.
Definition on_options (s : saying) := match s with SayOptions b t => Some (b, t) | _ => None end.
Definition on_coloured (s : saying) := match s with SayColoured b => Some b | _ => None end.
Definition on_no_pacts (s : saying) := match s with SayNoPacts b => Some b | _ => None end.
Definition on_publish (s : saying) := match s with SayPublish p => Some (Some p) | _ => None end.
Definition on_state (s : saying) := match s with SayState u t b => Some (u, t, b) | _ => None end.
Definition on_header (name : str) (s : saying) := match s with SayHeader n v => if str_eqb n name then Some (Some v) else None | _ => None end.
Definition is_provider (s : saying) : bool := match s with SayProvider _ _ _ _ _ => true | _ => false end.
Definition transports (l : list saying) : list transport := flat_map (fun s => match s with SayTransport t => [t] | _ => [] end) l.
(** The provider last set, with one transport of its own and those added since. *)
Inductive provider_after : list saying -> provider_info -> Prop :=
| pa_set : forall l1 n s h port p l2, (forall y, In y l2 -> is_provider y = false) -> s <> [] -> p <> [] ->
    provider_after (l1 ++ SayProvider n s h port p :: l2) (mkProvider n s h port p (mkTransport s port (Some p) (Some s) :: transports l2))
| pa_never : forall l, (forall y, In y l -> is_provider y = false) ->
    provider_after l (mkProvider (S_ "provider") (S_ "http") (S_ "localhost") (Some 8080) (S_ "/") (transports l)).
(** The sources in the order of the calls; a broker is asked for the provider that was set at the time of the call. *)
Inductive sources_after : list saying -> list source -> Prop :=
| sa_end : sources_after [] []
| sa_source : forall l ss s, sources_after l ss -> sources_after (l ++ [SaySource s]) (ss ++ [s])
| sa_broker : forall l ss p url pending wip tags br sel a, sources_after l ss -> provider_after l p ->
    sources_after (l ++ [SayBroker url pending wip tags br sel a]) (ss ++ [SrcBroker (p_name p) url pending wip tags br sel a])
| sa_other : forall l ss s, sources_after l ss -> (forall x, s <> SaySource x) -> (forall u p w t b e a, s <> SayBroker u p w t b e a) -> sources_after (l ++ [s]) ss.
Record amounts_to (l : list saying) (c : config) : Prop := {
  at_provider : provider_after l (c_provider c);
  at_sources : sources_after l (c_sources c);
  at_filter : setting on_filter FNone l (c_filter c);
  at_consumers : setting on_consumers [] l (c_consumers c);
  at_options : setting on_options (false, 5000) l (c_no_ssl c, c_timeout c);
  at_headers : forall n, setting (on_header n) None l (obj_get n (c_headers c));
  at_coloured : setting on_coloured true l (c_coloured c);
  at_no_pacts : setting on_no_pacts true l (c_no_pacts_is_error c);
  at_publish : setting on_publish None l (c_publish c);
  at_state : setting on_state (None, false, true) l (c_state_url c, c_teardown c, c_state_body c) }.

(** ** Texts with escape codes *)
(** ESC [, numbers separated by ";" (one may come first), and m, G or K. *)
Inductive escape_code : str -> Prop :=
| esc : forall lead numbers final, lead = [] \/ lead = [59] -> numbers <> [] -> Forall (fun n => n <> [] /\ Forall (fun c => 48 <= c <= 57) n) numbers ->
    In final (S_ "mGK") -> escape_code ([27; 91] ++ lead ++ join_with [59] numbers ++ [final]).
(** The text without its codes, taken from the left. *)
Inductive without_codes : str -> str -> Prop :=
| wc_end : without_codes [] []
| wc_code : forall code rest t, escape_code code -> without_codes rest t -> without_codes (code ++ rest) t
| wc_char : forall c s t, (forall code rest, c :: s = code ++ rest -> ~ escape_code code) -> without_codes s t -> without_codes (c :: s) (c :: t).

(** ** Selectors *)
(** The names a selector may have, and whether the value is a text or a truth value. *)
Definition selector_fields : list (str * bool) :=
  [(S_ "consumer", true); (S_ "tag", true); (S_ "fallbackTag", true); (S_ "latest", false); (S_ "deployedOrReleased", false); (S_ "deployed", false);
   (S_ "released", false); (S_ "environment", true); (S_ "mainBranch", false); (S_ "branch", true); (S_ "matchingBranch", false); (S_ "fallbackBranch", true)].
Definition right_kind (text : bool) (v : json) : Prop :=
  v = JNull \/ (if text then exists s, v = JStr s else exists b, v = JBool b).

(** ** The report *)
Definition entry (k : str) (j : json) (v : json) : Prop := exists m, j = JObj m /\ obj_get k m = Some v.
Definition problem_said (p : problem) (j : json) : Prop :=
  match p with
  | PMismatches ms id => entry (S_ "type") j (JStr (S_ "mismatches")) /\ entry (S_ "mismatches") j (JArr ms) /\ entry (S_ "interactionId") j (JStr (text_or id []))
  | PError m id => entry (S_ "type") j (JStr (S_ "error")) /\ entry (S_ "message") j (JStr m) /\ entry (S_ "interactionId") j (JStr (text_or id []))
  end.
Definition failure_said (e : str * problem) (j : json) : Prop :=
  entry (S_ "interaction") j (JStr (fst e)) /\ exists v, entry (S_ "mismatch") j v /\ problem_said (snd e) v.
Record reported (r : report) (j : json) : Prop := {
  rd_result : entry (S_ "result") j (JBool (rp_result r));
  rd_output : entry (S_ "output") j (JArr (map JStr (rp_output r)));
  rd_errors : exists l, entry (S_ "errors") j (JArr l) /\ Forall2 failure_said (rp_errors r) l;
  rd_pending : exists l, entry (S_ "pendingErrors") j (JArr l) /\ Forall2 failure_said (rp_pending r) l;
  rd_notices : exists l, entry (S_ "notices") j (JArr l) /\ Forall2 (fun n v => forall k, (exists t, last_entry k n = Some t /\ entry k v (JStr t)) \/ (last_entry k n = None /\ exists m, v = JObj m /\ obj_get k m = None)) (rp_notices r) l }.
