(** What a pact is after it has been written to a file of an older version and read back (C98, C99), and for which pacts. *)
From Coq Require Import Ascii String List Arith NArith ZArith Lia Bool Permutation.
From Verif Require Import Base PathExp Json Text MatchingRules Headers Query ContentType Http Merge Expr Generators Base64 PactFile OldFile
  SpecQuery SpecRules SpecRulesV2 SpecGenerators PropHeaders SpecPactFile.
Import ListNotations.
Open Scope N_scope.

(** The versions the library itself writes are read as what they are. *)
Definition reads_versions (semver : str -> option (N * N)) : Prop :=
  semver (S_ "1.0.0") = Some (1, 0) /\ semver (S_ "1.1.0") = Some (1, 1) /\ semver (S_ "2.0.0") = Some (2, 0) /\
  semver (S_ "3.0.0") = Some (3, 0) /\ semver (S_ "4.0") = Some (4, 0) /\ semver (S_ "unknown") = None.

Section Spec.
Variable w : world.
Variable x : externals.

(** ** Bodies *)
(** The type under which a body is written: its own, the one declared by a header or the metadata, or the one of its text. *)
Definition old_type (declared : option content_type) (bytes : list N) (own : option content_type) : content_type :=
  written_type own declared (Some (detect_text x (match from_utf8 bytes with Some s => s | None => [] end))).
(** The type under which a text is read. *)
Definition read_type (declared : option content_type) (s : str) : content_type :=
  match declared with Some t => t | None => detect_text x s end.
(** The text that stands for a body in the file, if it is not a JSON value of another kind. [binary]: types that are always encoded. *)
Definition text_in_file (binary : content_type -> bool) (t : content_type) (bytes : list N) : option str :=
  if is_json t then match json_of_bytes x bytes with Some (JStr s) => Some s | _ => None end
  else Some (if binary t then b64_encode bytes else match from_utf8 bytes with Some s => s | None => b64_encode bytes end).
(** A text that can be put between quotes as it is, and is not itself the text of a JSON text or object. *)
Definition plain_text (s : str) : Prop :=
  s <> [] /\ json_show w (JStr s) = [34] ++ s ++ [34] /\
  (forall s', json_of_bytes x (utf8 s) <> Some (JStr s')) /\ (forall m, json_of_bytes x (utf8 s) <> Some (JObj m)).
Definition old_body_ok (binary : content_type -> bool) (declared : option content_type) (b : body) : Prop :=
  match b with
  | BPresent bytes own _ =>
      let t := old_type declared bytes own in
      if is_json t then exists j, json_of_bytes x bytes = Some j /\ j <> JNull /\
                          forall s, j = JStr s -> plain_text s /\ is_json (read_type declared s) = true
      else match (if binary t then None else from_utf8 bytes) with
           | Some s => bytes <> [] /\ is_json (read_type declared s) = false /\
                       (is_text (read_type declared s) = true \/ b64_decode s = None)
           | None => bytes <> [] /\ Forall (fun c => c < 256) bytes /\ is_text (read_type declared (b64_encode bytes)) = false
           end
  | _ => True
  end.
(** What comes back: the same bytes, and for JSON the text of the same value. The type is the one under which a text has
    been read, and none for a value of another kind or encoded bytes; the hint is lost. *)
Definition old_body_back (binary : content_type -> bool) (declared : option content_type) (b b' : body) : Prop :=
  match b with
  | BPresent bytes own h =>
      let t := old_type declared bytes own in
      b' = BPresent (if is_json t then match json_of_bytes x bytes with Some j => utf8 (json_show w j) | None => bytes end else bytes)
             (match text_in_file binary t bytes with
              | Some s => if is_text (read_type declared s) then Some (read_type declared s) else None
              | None => None
              end) None
  | b => b' = b
  end.
Definition never (t : content_type) : bool := false.

(** ** Requests and responses *)
(** Headers that a file can hold as texts, with at most one content-type header, of one value. *)
Definition old_headers_ok (h : option hmap) : Prop :=
  match h with
  | Some m => distinct m /\ (forall k vs, In (k, vs) m -> header_writable w k vs) /\
              (forall k k' vs vs', In (k, vs) m -> In (k', vs') m -> is_content_type w k -> is_content_type w k' -> k = k') /\
              (forall k vs, In (k, vs) m -> is_content_type w k -> exists v, vs = [v])
  | None => True
  end.
Definition old_query_ok (v : spec_version) (q : option query_map) : Prop :=
  match q with Some m => if is_v3 v then distinct m else query_ok m | None => True end.
Definition old_rules_ok (v : spec_version) (m : matching_rules) : Prop := if is_v3 v then rules_ok w m else v2_collection w m.
Definition same_old_rules (v : spec_version) (m m' : matching_rules) : Prop :=
  if is_v3 v then same_collection m m' else same_first_rules m m'.
(** Only a V3 file has generators. *)
Definition old_generators_ok (v : spec_version) (g : generators) : Prop := if is_v3 v then generators_ok w g else True.
Definition same_old_generators (v : spec_version) (g g' : generators) : Prop := if is_v3 v then same_generators g g' else g' = [].

Definition old_request_ok (v : spec_version) (q : request * generators) : Prop :=
  let r := fst q in
  Forall (fun c => c < 128) (req_method r) /\ old_query_ok v (req_query r) /\ old_headers_ok (req_headers r) /\
  old_body_ok never (header_type w x (req_headers r)) (req_body r) /\ old_rules_ok v (req_rules r) /\ old_generators_ok v (snd q).
Definition same_old_request (v : spec_version) (q q' : request * generators) : Prop :=
  let r := fst q in let r' := fst q' in
  req_method r' = to_upper w (req_method r) /\ req_path r' = req_path r /\
  same_option same_map (req_query r) (req_query r') /\ same_option same_map (req_headers r) (req_headers r') /\
  old_body_back never (header_type w x (req_headers r)) (req_body r) (req_body r') /\
  same_old_rules v (req_rules r) (req_rules r') /\ same_old_generators v (snd q) (snd q').
Definition old_response_ok (v : spec_version) (q : response * generators) : Prop :=
  let r := fst q in
  resp_status r < 65536 /\ old_headers_ok (resp_headers r) /\
  old_body_ok never (header_type w x (resp_headers r)) (resp_body r) /\ old_rules_ok v (resp_rules r) /\ old_generators_ok v (snd q).
Definition same_old_response (v : spec_version) (q q' : response * generators) : Prop :=
  let r := fst q in let r' := fst q' in
  resp_status r' = resp_status r /\ same_option same_map (resp_headers r) (resp_headers r') /\
  old_body_back never (header_type w x (resp_headers r)) (resp_body r) (resp_body r') /\
  same_old_rules v (resp_rules r) (resp_rules r') /\ same_old_generators v (snd q) (snd q').

(** ** Interactions *)
(** Before V3 a file has the name of the first state only. *)
Definition old_states_ok (v : spec_version) (l : list pstate) : Prop :=
  if is_v3 v then Forall (fun s => distinct (st_params s)) l else match l with s :: _ => st_name s <> [] | [] => True end.
Definition same_old_states (v : spec_version) (l l' : list pstate) : Prop :=
  if is_v3 v then Forall2 same_state l l' else l' = match l with s :: _ => [mkState (st_name s) []] | [] => [] end.
Definition http_ok (v : spec_version) (i : http_interaction) : Prop :=
  old_states_ok v (h_states i) /\ old_request_ok v (h_request i) /\ old_response_ok v (h_response i).
Definition same_http (v : spec_version) (i i' : http_interaction) : Prop :=
  h_id i' = None /\ h_desc i' = h_desc i /\ same_old_states v (h_states i) (h_states i') /\
  same_old_request v (h_request i) (h_request i') /\ same_old_response v (h_response i) (h_response i').

(** The type the metadata of a message declares, in an entry "contentType" or "content-type", of whatever case. *)
Definition is_type_entry (k : str) : Prop := map ascii_low k = S_ "contenttype" \/ map ascii_low k = S_ "content-type".
Definition declares (md : list (str * json)) (t : option content_type) : Prop :=
  (exists k v, In (k, v) md /\ is_type_entry k /\ t = parse_mime x (json_to_string w v)) \/
  ((forall k v, In (k, v) md -> ~ is_type_entry k) /\ t = None).
(** There is at most one such entry, its type can be read, and what it prints as is read as the same type. *)
Definition old_message_ok (m : old_message) : Prop :=
  let b := fst (om_body m) in
  Forall (fun s => distinct (st_params s)) (om_states m) /\ distinct (msg_metadata b) /\
  (forall k k' v v', In (k, v) (msg_metadata b) -> In (k', v') (msg_metadata b) -> is_type_entry k -> is_type_entry k' -> k = k') /\
  (forall k v, In (k, v) (msg_metadata b) -> is_type_entry k ->
     exists t, parse_mime x (json_to_string w v) = Some t /\ parse_mime x (ct_show t) = Some t) /\
  (forall t, declares (msg_metadata b) t -> old_body_ok is_binary t (msg_contents b)) /\ rules_ok w (msg_rules b).
(** The declared type becomes the body's own. *)
Definition old_contents_back (declared : option content_type) (b b' : body) : Prop :=
  exists b0, old_body_back is_binary declared b b0 /\
    b' = match declared, b0 with Some t, BPresent bytes _ h => BPresent bytes (Some t) h | _, b0 => b0 end.
Definition same_old_message (m m' : old_message) : Prop :=
  let b := fst (om_body m) in let b' := fst (om_body m') in
  om_id m' = None /\ om_desc m' = om_desc m /\ Forall2 same_state (om_states m) (om_states m') /\
  same_map (msg_metadata b) (msg_metadata b') /\ same_collection (msg_rules b) (msg_rules b') /\ snd (om_body m') = [] /\
  forall t, declares (msg_metadata b) t -> old_contents_back t (msg_contents b) (msg_contents b').

(** ** Pacts *)
Definition old_metadata_ok (md : old_metadata) : Prop :=
  distinct md /\ Forall (fun kv => distinct (snd kv)) md /\
  entry (S_ "pact-specification") md = None /\ entry (S_ "pact-rust") md = None.
Definition same_old_metadata (lib : str) (v : spec_version) (md md' : old_metadata) : Prop :=
  entry (S_ "pactSpecification") md' = Some [(S_ "version", version_str v)] /\
  (exists m, entry (S_ "pactRust") md' = Some m /\ entry (S_ "models") m = Some lib /\
     forall k, k <> S_ "models" -> entry k m = match entry (S_ "pactRust") md with Some o => entry k o | None => None end) /\
  forall k, k <> S_ "pactSpecification" -> k <> S_ "pactRust" -> same_option same_map (entry k md) (entry k md').
Definition http_pact_ok (v : spec_version) (p : http_pact) : Prop := Forall (http_ok v) (hp_ints p) /\ old_metadata_ok (hp_meta p).
Definition same_http_pact (lib : str) (v : spec_version) (p p' : http_pact) : Prop :=
  hp_who p' = hp_who p /\ Forall2 (same_http v) (hp_ints p) (hp_ints p') /\
  same_old_metadata lib v (hp_meta p) (hp_meta p') /\ hp_version p' = v.
Definition message_file_ok (p : message_file) : Prop := Forall old_message_ok (mf_msgs p) /\ old_metadata_ok (mf_meta p).
Definition same_message_file (lib : str) (p p' : message_file) : Prop :=
  mf_who p' = mf_who p /\ Forall2 same_old_message (mf_msgs p) (mf_msgs p') /\
  same_old_metadata lib SV3 (mf_meta p) (mf_meta p') /\ mf_version p' = SV3.
End Spec.
