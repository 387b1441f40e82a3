(** What a user of a Pact Broker relies on, apart from how the verifier does it. *)
From Coq Require Import Ascii String List Arith NArith ZArith Lia Bool.
From Verif Require Import Base PathExp Json Text Matchers ContentType Http Merge QueryString VerifierClient Verifier Broker.
Import ListNotations.
Open Scope N_scope.

(** * The published results *)
Definition member (k : string) (j : json) : option json := match j with JObj m => obj_get (S_ k) m | _ => None end.
Definition only_members (ks : list string) (j : json) : Prop :=
  exists m, j = JObj m /\ NoDup (keys m) /\ forall k, In k (keys m) -> In k (map S_ ks).

(** What a mismatch is about. *)
Definition attribute_of (m : request_mismatch) : str :=
  match m with
  | MMethod => S_ "method" | MPath _ => S_ "path" | MStatus _ => S_ "status" | MQuery _ => S_ "query"
  | MHeader _ => S_ "header" | MBodyType => S_ "body" | MBody _ => S_ "body" | MMetadata _ _ => S_ "metadata"
  end.
Definition identifier_of (m : request_mismatch) : option str :=
  match m with
  | MMethod | MPath _ | MStatus _ => None
  | MQuery q => Some (mm_path q)
  | MHeader h => Some (mm_path h)
  | MBodyType => Some (S_ "$")
  | MBody b => Some (mm_path b)
  | MMetadata k _ => Some k
  end.

Section Texts.
Variable describe : request_mismatch -> str.
Variable message : error_kind -> str.

Definition tells_mismatch (m : request_mismatch) (j : json) : Prop :=
  only_members ["attribute"; "identifier"; "description"]%string j /\
  member "attribute" j = Some (JStr (attribute_of m)) /\
  member "identifier" j = option_map JStr (identifier_of m) /\
  member "description" j = Some (JStr (describe m)).
Definition tells_error (k : error_kind) (j : json) : Prop :=
  only_members ["message"]%string j /\ member "message" j = Some (JStr (message k)).

Definition mismatches_in (r : interaction_result) : list request_mismatch :=
  match ir_result r with Some (RMismatches ms _) => ms | _ => [] end.
Definition errors_in (r : interaction_result) : list error_kind :=
  match ir_result r with Some (RError k _) => [k] | _ => [] end.

(** A list under a member that is left out when there is nothing to tell. *)
Definition told {A} (tells : A -> json -> Prop) (l : list A) (o : option json) : Prop :=
  match l with [] => o = None | _ => exists js, o = Some (JArr js) /\ Forall2 tells l js end.

(** What is published for neighbouring interactions that share an id. *)
Definition group_entry (id : option str) (g : list interaction_result) (j : json) : Prop :=
  only_members ["interactionId"; "success"; "mismatches"; "exceptions"; "interactionDescription"]%string j /\
  member "interactionId" j = Some (JStr (match id with Some i => i | None => [] end)) /\
  member "success" j = Some (JBool (match flat_map mismatches_in g, flat_map errors_in g with [], [] => true | _, _ => false end)) /\
  told tells_mismatch (flat_map mismatches_in g) (member "mismatches" j) /\
  told tells_error (flat_map errors_in g) (member "exceptions" j) /\
  (forall r rest, g = r :: rest -> member "interactionDescription" j = Some (JStr (ir_interaction r))).

(** What is published for one interaction. *)
Definition own_entry (r : interaction_result) (j : json) : Prop :=
  member "interactionId" j = option_map JStr (ir_id r) /\
  member "success" j = Some (JBool (match ir_result r with None => true | Some _ => false end)) /\
  member "interactionDescription" j = Some (JStr (ir_interaction r)) /\
  told tells_mismatch (mismatches_in r) (member "mismatches" j) /\
  told tells_error (errors_in r) (member "exceptions" j).
End Texts.

Definition same_id (a b : option str) : Prop :=
  match a with Some i => i | None => [] end = match b with Some i => i | None => [] end.
(** Neighbours with the same id make up a group. *)
Definition in_groups (rs : list interaction_result) (gs : list (option str * list interaction_result)) : Prop :=
  concat (map snd gs) = rs /\
  (forall id g, In (id, g) gs -> g <> [] /\ forall r, In r g -> same_id (ir_id r) id) /\
  (forall before i gi j gj after, gs = before ++ (i, gi) :: (j, gj) :: after -> ~ same_id i j).

(** * Links *)
Section Links.
Variable w : world.
Variable uni_word : N -> bool.

(** A variable of a template: a name of word characters in braces. *)
Definition is_word (c : N) : Prop :=
  (97 <= c <= 122) \/ (65 <= c <= 90) \/ (48 <= c <= 57) \/ c = 95 \/ (128 <= c /\ uni_word c = true).
Definition variable (s name rest : str) : Prop :=
  s = S_ "{" ++ name ++ S_ "}" ++ rest /\ name <> [] /\ Forall is_word name.

(** [reads enc v]: [enc] is the text [v], percent-encoded. *)
Definition encodes (v enc : str) : Prop :=
  decode_query enc = Some v /\
  forall c, In c enc -> (97 <= c <= 122) \/ (65 <= c <= 90) \/ (48 <= c <= 57) \/ In c (S_ "-._~%").

(** A template with its variables replaced, from left to right; what has no value stays as it is. *)
Inductive expanded (values : list (str * str)) : str -> str -> Prop :=
| ex_end : expanded values [] []
| ex_known : forall s name rest v enc out, variable s name rest -> obj_get name values = Some v -> encodes v enc ->
    expanded values rest out -> expanded values s (enc ++ out)
| ex_unknown : forall s name rest out, variable s name rest -> obj_get name values = None ->
    expanded values rest out -> expanded values s (S_ "{" ++ name ++ S_ "}" ++ out)
| ex_char : forall c s out, (forall name rest, ~ variable (c :: s) name rest) ->
    expanded values s out -> expanded values (c :: s) (c :: out).
End Links.

(** A value as a text: a string without its quotes, anything else as JSON. *)
Definition as_text (w : world) (j : json) (s : str) : Prop :=
  match j with JStr t => s = t | _ => s = json_show w j end.
(** [first_like w k m v]: the first member of [m] whose name is [k] but for case has the value [v]. *)
Definition first_like (w : world) (k : str) (m : list (str * json)) (v : json) : Prop :=
  exists before k' after, m = before ++ (k', v) :: after /\ to_lower w k' = to_lower w k /\
    forall k'' v'', In (k'', v'') before -> to_lower w k'' <> to_lower w k.
(** What a link object says. *)
Definition link_reads (w : world) (name : str) (m : list (str * json)) (l : link) : Prop :=
  l_name l = name /\
  (l_templated l = true <-> obj_get (S_ "templated") m = Some (JBool true)) /\
  match l_href l with
  | Some h => exists v, first_like w (S_ "href") m v /\ as_text w v h
  | None => forall k v, In (k, v) m -> to_lower w k <> to_lower w (S_ "href")
  end /\
  match l_title l with
  | Some t => exists v, obj_get (S_ "title") m = Some v /\ as_text w v t
  | None => obj_get (S_ "title") m = None
  end.

(** * Requests *)
Section Requests.
Variable w : world.
Variable x : externals.
Variable uw : N -> bool.
Variable u : url_lib.
Variable broker : request_log u -> broker_request u -> option broker_response.

(** An answer that is a document: a status of success, a JSON content type and JSON in the body. *)
Definition is_document (a : broker_response) (j : json) : Prop :=
  200 <= bs_status a < 300 /\ json_of_bytes x (bs_body a) = Some j /\
  exists ct, parse_mime x (match bs_type a with Some t => t | None => S_ "text/plain" end) = Some ct /\ main_type ct = S_ "application" /\
    ((sub_type ct = S_ "json" /\ suffix ct = None) \/ (sub_type ct = S_ "hal" /\ suffix ct = Some (S_ "json"))).
Definition answered (h : request_log u) (r : broker_request u) (j : json) : Prop :=
  exists a, broker h r = Some a /\ is_document a j.

(** What the request sends to prove who it is. *)
Definition carries (auth : option http_auth) (r : broker_request u) : Prop :=
  br_auth r = match auth with Some ANone => None | _ => auth end.

(** Where a link leads to. *)
Definition leads_to (l : link) (values : list (str * str)) (to : str) : Prop :=
  exists href, l_href l = Some href /\ expanded uw values href to.
(** The target of a link, and the URL of the document that is read there. *)
Definition target (l : link) (values : list (str * str)) (to : str) : Prop :=
  if l_templated l then leads_to l values to else l_href l = Some to.
Definition on_broker (broker_url to : str) (t : url u) : Prop :=
  exists base joined, u_parse u broker_url = Some base /\ u_join u base to = Some joined /\ resolve_path u broker_url (u_path u joined) = Ok t.
Definition read_from (broker_url : str) (l : link) (values : list (str * str)) (t : url u) : Prop :=
  exists to, target l values to /\ on_broker broker_url to t.
(** The URL a document is sent to: on the broker, whatever host [to] names. *)
Definition sent_to (broker_url to : str) (t : url u) : Prop :=
  exists base, u_parse u broker_url = Some base /\
    ((exists p, to = S_ "/" ++ p) /\ u_join u base to = Some t \/
     ~ (exists p, to = S_ "/" ++ p) /\ exists v, u_parse u to = Some v /\ u_join u base (u_path u v) = Some t).

(** A document that the link [name] of the document [doc] leads to is read: the request. *)
Definition follows (broker_url : str) (auth : option http_auth) (doc : json) (name : str) (values : list (str * str)) (r : broker_request u) : Prop :=
  exists l t, find_link w (Some doc) name = Ok l /\ read_from broker_url l values t /\ r = mkBR BGet t (credentials auth) None.
(** A document is sent to where the link leads. *)
Definition sends (broker_url : str) (auth : option http_auth) (m : broker_method) (doc : json) (name : str) (values : list (str * str)) (body : json)
    (r : broker_request u) : Prop :=
  exists l to t, find_link w (Some doc) name = Ok l /\ leads_to l values to /\ sent_to broker_url to t /\ r = mkBR m t (credentials auth) (Some body).

(** The requests that publish a provider branch. *)
Definition branch_published (broker_url : str) (auth : option http_auth) (links : list link) (branch : option str) (version : str)
    (h : request_log u) (evs : request_log u) : Prop :=
  match branch with
  | None => evs = []
  | Some b => exists get put doc, evs = [get; put] /\
      follows broker_url auth (doc_context links) (S_ "pb:provider") [] get /\ answered h get doc /\
      sends broker_url auth BPut doc (S_ "pb:branch-version") [(S_ "branch", b); (S_ "version", version)] (JObj []) put
  end.
(** The requests that publish tags. *)
Definition tags_published (broker_url : str) (auth : option http_auth) (links : list link) (tags : list str) (version : str)
    (h : request_log u) (evs : request_log u) : Prop :=
  match tags with
  | [] => evs = []
  | _ => exists get puts doc, evs = get :: puts /\
      follows broker_url auth (doc_context links) (S_ "pb:provider") [] get /\ answered h get doc /\
      Forall2 (fun tag put => sends broker_url auth BPut doc (S_ "pb:version-tag") [(S_ "version", version); (S_ "tag", tag)] (JObj []) put) tags puts
  end.

(** ** Reading pacts *)
Context {P : Type}.
Variable load_pact : json -> option P.

(** One pact: at most one request, and what comes of it. *)
Inductive pact_read (broker_url : str) (auth : option http_auth) (values : list (str * str)) (l : link) (h : request_log u)
    : request_log u -> result (P * list link) -> Prop :=
| pr_no_href : l_href l = None -> pact_read broker_url auth values l h [] (Err BLink)
| pr_no_url to e : target l values to -> (forall t, ~ on_broker broker_url to t) -> pact_read broker_url auth values l h [] (Err e)
| pr_no_document t e r : read_from broker_url l values t -> r = mkBR BGet t (credentials auth) None -> (forall j, ~ answered h r j) ->
    pact_read broker_url auth values l h [r] (Err e)
| pr_no_pact t j r : read_from broker_url l values t -> r = mkBR BGet t (credentials auth) None -> answered h r j -> load_pact j = None ->
    pact_read broker_url auth values l h [r] (Err BContent)
| pr_pact t j r p : read_from broker_url l values t -> r = mkBR BGet t (credentials auth) None -> answered h r j -> load_pact j = Some p ->
    pact_read broker_url auth values l h [r] (Ok (p, links_from_json w j)).
(** All of them in turn. *)
Inductive pacts_read (broker_url : str) (auth : option http_auth) (values : list (str * str))
    : request_log u -> list link -> request_log u -> list (result (P * list link)) -> Prop :=
| prs_nil h : pacts_read broker_url auth values h [] [] []
| prs_cons h l ls evs evs' r rs : pact_read broker_url auth values l h evs r -> pacts_read broker_url auth values (h ++ evs) ls evs' rs ->
    pacts_read broker_url auth values h (l :: ls) (evs ++ evs') (r :: rs).
End Requests.

(** ** The list of pacts to verify *)
Definition text_map (j : json) (m : list (str * str)) : Prop :=
  exists o, j = JObj o /\ Forall2 (fun kv kv' => fst kv = fst kv' /\ snd kv = JStr (snd kv')) o m.
Definition properties_read (o : option json) (p : properties) : Prop :=
  match o with
  | None | Some JNull => p = mkProps false []
  | Some (JObj m) =>
      (obj_get (S_ "pending") m = Some (JBool (pr_pending p)) \/ obj_get (S_ "pending") m = None /\ pr_pending p = false) /\
      exists ns, obj_get (S_ "notices") m = Some (JArr ns) /\ Forall2 text_map ns (pr_notices p)
  | _ => False
  end.
Definition text_or_nothing (o : option json) (t : option str) : Prop :=
  match o with None | Some JNull => t = None | Some (JStr s) => t = Some s | _ => False end.
Definition plain_link (j : json) (l : link) : Prop :=
  exists m, j = JObj m /\
    (obj_get (S_ "name") m = Some (JStr (l_name l)) \/ obj_get (S_ "name") m = None /\ l_name l = S_ "link") /\
    text_or_nothing (obj_get (S_ "href") m) (l_href l) /\
    (obj_get (S_ "templated") m = Some (JBool (l_templated l)) \/ obj_get (S_ "templated") m = None /\ l_templated l = false) /\
    text_or_nothing (obj_get (S_ "title") m) (l_title l).
(** An entry of the list: a pact with its link and what is known about it. *)
Definition pact_listed (j : json) (lp : link * properties) : Prop :=
  exists m short ls ls', j = JObj m /\ obj_get (S_ "shortDescription") m = Some (JStr short) /\
    obj_get (S_ "_links") m = Some (JObj ls) /\ Forall2 (fun kv kv' => fst kv = fst kv' /\ plain_link (snd kv) (snd kv')) ls ls' /\
    obj_get (S_ "self") ls' = Some (fst lp) /\ properties_read (obj_get (S_ "verificationProperties") m) (snd lp).
