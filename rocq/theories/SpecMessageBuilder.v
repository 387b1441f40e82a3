(** Specification of the messages and pacts described with the consumer DSL, in terms of the calls. *)
From Coq Require Import Ascii String List Arith NArith ZArith Lia Bool Permutation.
From Verif Require Import Base PathExp Json Text MatchingRules Matchers SpecMatch SpecValues Headers Query ContentType SpecQuery SpecHeaders SpecHttp
  Http Merge Generators Pattern SpecPattern Builder SpecBuilder PactFile OldFile MessageBuilder PropMessage.
Import ListNotations.
Open Scope N_scope.

(** ** States, comments, key, pending *)
Definition states_said (l : list about_call) : list pstate :=
  flat_map (fun c => match c with AGiven n => [mkState n []] | AGivenWith n (JObj m) => [mkState n m] | AGivenWith n _ => [mkState n []] | _ => [] end) l.
Definition comments_said (l : list about_call) : list str := flat_map (fun c => match c with AComment s => [s] | _ => [] end) l.
Definition names_said (l : list about_call) : list str := flat_map (fun c => match c with ATestName s => [s] | _ => [] end) l.
Definition keys_said (l : list about_call) : list str := flat_map (fun c => match c with AKey s => [s] | _ => [] end) l.
Definition pending_said (l : list about_call) : list bool := flat_map (fun c => match c with APending b => [b] | _ => [] end) l.
Definition transports_said (l : list about_call) : list str := flat_map (fun c => match c with ATransport s => [s] | _ => [] end) l.
(** An interaction as it is described: in the order of the calls, of several values for the same thing the last. *)
Definition described (desc : str) (l : list about_call) (i : file_interaction) : Prop :=
  f_id i = None /\ f_desc i = desc /\ f_key i = last_of (keys_said l) /\ f_states i = states_said l /\
  x_pending (f_extra i) = last (pending_said l) false /\
  entry (S_ "text") (x_comments (f_extra i)) = Some (JArr (map JStr (comments_said l))) /\
  entry (S_ "testname") (x_comments (f_extra i)) = Some (match last_of (names_said l) with Some s => JStr s | None => JNull end).

(** ** The contents *)
Definition sets_everything (c : contents_call) : bool := match c with CReset _ => true | _ => false end.
(** The calls after the last one that sets everything. *)
Fixpoint since (l : list contents_call) : list contents_call :=
  match l with
  | [] => []
  | c :: l' => if existsb sets_everything l' then since l' else if sets_everything c then l' else c :: l'
  end.
(** The values given for a metadata key, and the content types given with bodies. *)
Definition values_said (l : list contents_call) (k : str) : list json :=
  flat_map (fun c => match c with
                     | CMeta k' v => if str_eqb k' k then [v] else []
                     | CContents m _ => match entry k (msg_metadata m) with Some v => [v] | None => [] end
                     | _ => []
                     end) l.
Definition types_said (l : list contents_call) : list str := flat_map (fun c => match c with CBytes _ (Some t) => [t] | _ => [] end) l.
(** The metadata: the last value given for the key; for "contentType", if no value was given, the type of the first body that has one. *)
Definition metadata_said (l : list contents_call) (k : str) : option json :=
  match last_of (values_said (since l) k) with
  | Some v => Some v
  | None => if str_eqb k (S_ "contentType") then option_map JStr (hd_error (types_said (since l))) else None
  end.
Definition metadata_accepted (w : world) (said : str -> option json) (A : list (str * json)) : Prop :=
  forall k v, said k = Some v -> exists v', entry k A = Some v' /\ metadata_value_agrees (is_space w) k v v'.

Section Said.
Variable w : world.
Variable x : externals.
Definition body_said (c : contents_call) : list body :=
  match c with
  | CMeta _ _ => []
  | CJson p => [BPresent (utf8 (json_show w (to_example p))) (Some (content_type_of x (S_ "application/json"))) None]
  | CBytes b ct => [BPresent b (option_map (content_type_of x) ct) None]
  | CContents m _ => [msg_contents m]
  | CReset b => [b]
  end.
Definition patterns_said (l : list contents_call) : list pattern := flat_map (fun c => match c with CJson p => [p] | _ => [] end) (since l).
Definition whole_contents (l : list contents_call) : list message := flat_map (fun c => match c with CContents m _ => [m] | _ => [] end) (since l).
(** The JSON pattern [p] is the body, and no other pattern and no whole contents were given since everything was set. *)
Definition pattern_given (p : pattern) (l : list contents_call) : Prop :=
  patterns_said l = [p] /\ whole_contents l = [] /\ exists l1 l2, since l = l1 ++ CJson p :: l2 /\ flat_map body_said l2 = [].
(** No rules: only bytes and metadata since everything was set. *)
Definition bytes_given (l : list contents_call) : Prop := patterns_said l = [] /\ whole_contents l = [].

(** ** The calls of the two builders *)
(** Contents given as one JSON value: "pact:content-type" is the type (if it cannot be read, there is nothing), "contents" the body; a
    value without a type is the body itself. For synchronous messages, "request" and "response" (one, or a list of several). *)
Definition fields_said (j : json) : list (str * json) := match j with JObj m => m | _ => [] end.
Definition type_said (j : json) : option (option content_type) :=
  match entry (S_ "pact:content-type") (fields_said j) with
  | None => Some None
  | Some v => option_map Some (parse_mime x (json_to_string w v))
  end.
Definition body_typed (ct : option content_type) (j : json) : body :=
  BPresent (utf8 (json_show w j)) (Some (match ct with Some t => t | None => content_type_of x (S_ "application/json;charset=UTF-8") end)) None.
Definition contents_given (j : json) : list body :=
  match type_said j with
  | None => []
  | Some None => [body_typed None (JObj (fields_said j))]
  | Some (Some t) => match entry (S_ "contents") (fields_said j) with Some c => [body_typed (Some t) c] | None => [BMissing] end
  end.
Definition request_given (j : json) : list body :=
  match type_said j, entry (S_ "request") (fields_said j) with Some t, Some r => [body_typed t r] | _, _ => [] end.
Definition responses_given (j : json) : list body :=
  match type_said j, entry (S_ "response") (fields_said j) with
  | Some t, Some (JArr l) => map (body_typed t) l
  | Some t, Some r => [body_typed t r]
  | _, _ => []
  end.
Definition async_abouts (h : list async_call) : list about_call := flat_map (fun c => match c with MAbout c => [c] | _ => [] end) h.
Definition async_calls (h : list async_call) : list contents_call :=
  flat_map (fun c => match c with
                     | MAbout _ => []
                     | MMeta k v => [CMeta k v]
                     | MContentsFrom j => map CReset (contents_given j)
                     | MJsonBody p => [CJson p]
                     | MBytes b ct => [CBytes b ct]
                     end) h.
Definition sync_abouts (h : list sync_call) : list about_call := flat_map (fun c => match c with SAbout c => [c] | _ => [] end) h.
Definition request_parts (h : list sync_call) : list contents_call :=
  flat_map (fun c => match c with
                     | SRequestMetadata k v => [CMeta k v]
                     | SContentsFrom j => map CReset (request_given j)
                     | SRequestJson p => [CJson p]
                     | SRequestBody b ct => [CBytes b ct]
                     | SRequestContents m g => [CContents m g]
                     | _ => []
                     end) h.
(** One description for every response, in order. *)
Inductive response_said := RSJson (p : pattern) | RSBytes (b : list N) (ct : option str) | RSContents (m : message) (g : generators) | RSBody (b : body).
Definition responses_said (h : list sync_call) : list response_said :=
  flat_map (fun c => match c with
                     | SContentsFrom j => map RSBody (responses_given j)
                     | SResponseJson p => [RSJson p]
                     | SResponseBody b ct => [RSBytes b ct]
                     | SResponseContents m g => [RSContents m g]
                     | _ => []
                     end) h.
(** A content type that is given as JSON is one that can be read. *)
Definition type_readable (j : json) : Prop :=
  match j with JObj m => forall v, entry (S_ "pact:content-type") m = Some v -> parse_mime x (json_to_string w v) <> None | _ => True end.
End Said.

(** ** What is accepted *)
(** Rules in any order, as the rule maps are hash maps. *)
Definition same_message (b e : message) : Prop :=
  msg_contents e = msg_contents b /\ msg_metadata e = msg_metadata b /\ shuffled (msg_rules b) (msg_rules e).

(** ** Pacts *)
(** An interaction of a pact, in the form of V4. *)
Definition wants (p : any_pact) (i : any_interaction) : Prop :=
  match p, i with
  | AV4 _, _ => True
  | AHttp _, XHttp _ | AMsg _, XMsg _ => True
  | AHttp _, XV4 i => exists q r, f_payload i = FHttp q r
  | AMsg _, XV4 i => exists m, f_payload i = FAsync m
  | _, _ => False
  end.
(** The interaction as V4, HTTP or message interaction. *)
Definition as_v4 (i : any_interaction) : file_interaction := match i with XHttp i => upgrade_http i | XMsg m => upgrade_message m | XV4 i => i end.
(** [i] is the message number [k] of the list: there are [k] messages before it. *)
Definition is_async (i : file_interaction) : Prop := exists m, f_payload i = FAsync m.
Definition is_sync (i : file_interaction) : Prop := exists q r, f_payload i = FSync q r.
Inductive numbered (msg : file_interaction -> Prop) : nat -> file_interaction -> list file_interaction -> Prop :=
| num_here : forall i l, msg i -> numbered msg 0 i (i :: l)
| num_message : forall k i i0 l, msg i0 -> numbered msg k i l -> numbered msg (S k) i (i0 :: l)
| num_other : forall k i i0 l, ~ msg i0 -> numbered msg k i l -> numbered msg k i (i0 :: l).
