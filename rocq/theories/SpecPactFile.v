(** What a V4 pact is after it has been written to a file and read back (C97), and for which pacts. *)
From Coq Require Import Ascii String List Arith NArith ZArith Lia Bool Permutation Sorted.
From Verif Require Import Base PathExp Json Text MatchingRules Headers Query ContentType Http Merge Expr Generators PactFile
  SpecQuery SpecRules SpecGenerators.
Import ListNotations.
Open Scope N_scope.

(** ** Maps *)
Definition same_option {A} (R : A -> A -> Prop) (a b : option A) : Prop :=
  match a, b with Some p, Some q => R p q | None, None => True | _, _ => False end.
Definition distinct {A} (m : list (str * A)) : Prop := NoDup (map fst m).
Definition distinct_in {A} (o : option (list (str * A))) : Prop := match o with Some m => distinct m | None => True end.

Section Spec.
Variable w : world.
Variable x : externals.

(** ** Bodies *)
(** The type a content-type header, or the entry "contentType" of a message's metadata, declares. *)
Definition is_content_type (name : str) : Prop := to_lower w name = S_ "content-type".
Definition header_type (h : option hmap) : option content_type :=
  match h with
  | Some m => match find_header w m (S_ "content-type") with Some (v :: _) => parse_mime x v | _ => None end
  | None => None
  end.
Definition metadata_type (md : list (str * json)) : option content_type :=
  match entry (S_ "contentType") md with Some v => parse_mime x (json_to_string w v) | None => None end.
(** The type under which a body is written: its own, then the declared one, then the detected one, if these are looked
    at, and otherwise "*/*". *)
Definition written_type (own declared detected : option content_type) : content_type :=
  match own, declared, detected with
  | Some t, _, _ => t
  | None, Some t, _ => t
  | None, None, Some t => t
  | None, None, None => ct_default
  end.
Definition looked_at (declared : option content_type) (bytes : list N) (own : option content_type) : content_type :=
  written_type own declared (detect_bytes x bytes).
Definition own_only (bytes : list N) (own : option content_type) : content_type := written_type own None None.

(** What comes back: the same bytes - for JSON the text of the same value - with the type [T] gives and the same hint. *)
Definition body_back (T : list N -> option content_type -> content_type) (b b' : body) : Prop :=
  match b with
  | BMissing | BNull => b' = BMissing
  | BEmpty => b' = BEmpty
  | BPresent bytes own h =>
      exists bytes', b' = BPresent bytes' (Some (T bytes own)) h /\
        bytes' = (if is_json (T bytes own)
                  then match json_of_bytes x bytes with Some j => utf8 (json_show w j) | None => bytes end
                  else bytes)
  end.
Definition body_ok (T : list N -> option content_type -> content_type) (b : body) : Prop :=
  match b with
  | BPresent bytes own _ =>
      bytes <> [] /\ Forall (fun c => c < 256) bytes /\
      parse_mime x (ct_show (T bytes own)) = Some (T bytes own) /\
      (is_json (T bytes own) = true -> json_of_bytes x bytes <> Some JNull /\ json_of_bytes x bytes <> Some (JStr []))
  | _ => True
  end.

(** ** Requests, responses and messages *)
Definition rules_ok (m : matching_rules) : Prop := collection_ok w m.
Definition generators_ok (g : generators) : Prop :=
  generators_wf g /\ forall c p y, has_generator g c p y -> carried_key w c p /\ not_array_contains y.

(** A content-type header has a value. *)
Definition typed_headers (h : option hmap) : Prop :=
  forall m k vs, h = Some m -> In (k, vs) m -> is_content_type k -> vs <> [].
Definition request_ok (q : request * generators) : Prop :=
  let r := fst q in
  Forall (fun c => c < 128) (req_method r) /\
  distinct_in (req_query r) /\ distinct_in (req_headers r) /\
  typed_headers (req_headers r) /\
  body_ok (looked_at (header_type (req_headers r))) (req_body r) /\ rules_ok (req_rules r) /\ generators_ok (snd q).
Definition same_request (q q' : request * generators) : Prop :=
  let r := fst q in let r' := fst q' in
  req_method r' = to_upper w (req_method r) /\ req_path r' = req_path r /\
  same_option same_map (req_query r) (req_query r') /\ same_option same_map (req_headers r) (req_headers r') /\
  body_back (looked_at (header_type (req_headers r))) (req_body r) (req_body r') /\
  same_collection (req_rules r) (req_rules r') /\ same_generators (snd q) (snd q').

Definition response_ok (q : response * generators) : Prop :=
  let r := fst q in
  resp_status r < 65536 /\ distinct_in (resp_headers r) /\ typed_headers (resp_headers r) /\
  body_ok own_only (resp_body r) /\ rules_ok (resp_rules r) /\ generators_ok (snd q).
Definition same_response (q q' : response * generators) : Prop :=
  let r := fst q in let r' := fst q' in
  resp_status r' = resp_status r /\ same_option same_map (resp_headers r) (resp_headers r') /\
  body_back own_only (resp_body r) (resp_body r') /\
  same_collection (resp_rules r) (resp_rules r') /\ same_generators (snd q) (snd q').

(** [T]: [own_only] for a message of its own, [looked_at] for the request or a response of a synchronous one. *)
Definition message_ok (T : list N -> option content_type -> content_type) (q : message * generators) : Prop :=
  distinct (msg_metadata (fst q)) /\ body_ok T (msg_contents (fst q)) /\ rules_ok (msg_rules (fst q)) /\ generators_ok (snd q).
Definition same_message (T : list N -> option content_type -> content_type) (q q' : message * generators) : Prop :=
  same_map (msg_metadata (fst q)) (msg_metadata (fst q')) /\
  body_back T (msg_contents (fst q)) (msg_contents (fst q')) /\
  same_collection (msg_rules (fst q)) (msg_rules (fst q')) /\ same_generators (snd q) (snd q').
Definition by_metadata (q : message * generators) := looked_at (metadata_type (msg_metadata (fst q))).

Definition payload_ok (p : file_payload) : Prop :=
  match p with
  | FHttp q r => request_ok q /\ response_ok r
  | FAsync m => message_ok own_only m
  | FSync q l => message_ok (by_metadata q) q /\ Forall (fun m => message_ok (by_metadata m) m) l
  end.
Definition same_payload (p p' : file_payload) : Prop :=
  match p, p' with
  | FHttp q r, FHttp q' r' => same_request q q' /\ same_response r r'
  | FAsync m, FAsync m' => same_message own_only m m'
  | FSync q l, FSync q' l' => same_message (by_metadata q) q q' /\ Forall2 (fun m m' => same_message (by_metadata m) m m') l l'
  | _, _ => False
  end.

(** ** Interactions *)
Definition same_state (s s' : pstate) : Prop := st_name s' = st_name s /\ same_map (st_params s) (st_params s').
(** null, an empty text, an empty list and an empty object. *)
Definition blank (j : json) : Prop := j = JNull \/ j = JStr [] \/ j = JArr [] \/ j = JObj [].
Definition interaction_ok (i : file_interaction) : Prop :=
  Forall (fun s => distinct (st_params s)) (f_states i) /\
  distinct (x_comments (f_extra i)) /\
  distinct (x_plugin (f_extra i)) /\ Forall (fun kc => distinct (snd kc)) (x_plugin (f_extra i)) /\
  payload_ok (f_payload i).
Definition same_interaction (i i' : file_interaction) : Prop :=
  let e := f_extra i in let e' := f_extra i' in
  f_id i' = None /\ f_key i' = f_key i /\ f_desc i' = f_desc i /\
  Forall2 same_state (f_states i) (f_states i') /\
  x_pending e' = x_pending e /\ x_transport e' = x_transport e /\
  (forall k j, entry k (x_comments e') = Some j <-> entry k (x_comments e) = Some j /\ ~ blank j) /\
  (forall k, same_option same_map (entry k (x_plugin e)) (entry k (x_plugin e'))) /\
  x_markup e' = (match fst (x_markup e) with [] => ([], []) | _ => x_markup e end) /\
  same_payload (f_payload i) (f_payload i').

(** ** Pacts *)
(** [out] has the interactions of [l] in the order of their descriptions, those with the same description in the order of [l]. *)
Definition sorted_stably (l out : list file_interaction) : Prop :=
  Permutation l out /\ StronglySorted (fun i j => f_desc i = f_desc j \/ str_lt (f_desc i) (f_desc j)) out /\
  forall d, filter (fun i => str_eqb (f_desc i) d) out = filter (fun i => str_eqb (f_desc i) d) l.
Definition same_plugin (p p' : plugin) : Prop :=
  pl_name p' = pl_name p /\ pl_version p' = pl_version p /\ same_map (pl_config p) (pl_config p').
(** The entry "pactRust": an object gets the version of the library, anything else stays. *)
Definition with_models (version : str) (old : option json) (new : option json) : Prop :=
  match old with
  | Some (JObj m) => exists m', new = Some (JObj m') /\ entry (S_ "models") m' = Some (JStr version) /\
                                forall k, k <> S_ "models" -> entry k m' = entry k m
  | Some j => new = Some j
  | None => new = Some (JObj [(S_ "models", JStr version)])
  end.
Definition same_metadata (version : str) (md md' : list (str * json)) : Prop :=
  entry (S_ "pactSpecification") md' = Some (JObj [(S_ "version", JStr (S_ "4.0"))]) /\
  with_models version (entry (S_ "pactRust") md) (entry (S_ "pactRust") md') /\
  forall k, k <> S_ "pactSpecification" -> k <> S_ "pactRust" -> entry k md' = entry k md.
Definition pact_ok (p : v4_file) : Prop :=
  Forall interaction_ok (vf_ints p) /\
  distinct (vf_meta p) /\ (forall k, In k [S_ "plugins"; S_ "pact-specification"; S_ "pact-rust"] -> entry k (vf_meta p) = None) /\
  Forall (fun d => distinct (pl_config d)) (vf_plugins p).
Definition same_pact (version : str) (p p' : v4_file) : Prop :=
  vf_who p' = vf_who p /\ same_metadata version (vf_meta p) (vf_meta p') /\
  Forall2 same_plugin (vf_plugins p) (vf_plugins p') /\
  exists l, sorted_stably (vf_ints p) l /\ Forall2 same_interaction l (vf_ints p').
End Spec.
