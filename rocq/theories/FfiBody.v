(** Model of the calls of the C interface that set a body:
    rust/pact_ffi/src/mock_server/handles.rs:1674-1790 [process_body], 1831-1948 [pactffi_with_body],
    1980-2043 [pactffi_with_binary_body], 2078-2157 [pactffi_with_binary_file], 2338-2343, 2372-2440
    [pactffi_with_multipart_file_v2], 2652-2660 [convert_ptr_to_body], 1092-1101 [process_xml]; bodies.rs:249-262 [process_json],
    274-388 (multipart bodies).

    An interaction is the part of it these calls look at or change: the headers, the body, the rules of the categories "body" and
    "header" and the generators of a request or response; the contents, the metadata, the rules of the body and the generators of a
    message. Everything else of the interaction is left as it is. A text from C is [None] for a NULL pointer or for bytes that are
    not UTF-8 ([convert_cstr]). *)
From Coq Require Import Ascii String List Arith NArith ZArith Lia Bool.
From Verif Require Import Base PathExp Json Text MatchingRules Matchers Headers ContentType Http Expr Generators RuleExpr Integration
  FormJson XmlJson Merge PactFile Handles Builder.
Import ListNotations.
Open Scope N_scope.

Record fpart := mkFP { fp_headers : option hmap; fp_body : body; fp_rules : xcategory; fp_header_rules : xcategory; fp_gens : generators }.
Record fmsg := mkFM { fm_body : body; fm_meta : list (str * json); fm_rules : xcategory; fm_gens : generators }.
Inductive fint := FIHttp (q p : fpart) | FIAsync (m : fmsg) | FISync (q : fmsg) (l : list fmsg).
(** v4/message_parts.rs [MessageContents::default]. *)
Definition fmsg_default : fmsg := mkFM BMissing [] (mkCat CBody []) [].

Section Body.
Variable w : world.
Variable x : externals.
Variable junk : str -> nat.
Variable print_xml : option xtree -> list N.   (* sxd_document's [format_document] into a vector *)

(** ** Texts *)
(** bodies.rs:249-262 [process_json]. *)
Definition process_json (s : str) (st : store) : outcome (str * store) unit :=
  match json_of_bytes x (utf8 s) with
  | Some ((JObj _ | JArr _) as v) => bind (process_json_value w junk v st) (fun r => Ok (json_show w (fst r), snd r))
  | _ => Ok (s, st)
  end.
(** handles.rs:1092-1101 [process_xml] with the [unwrap_or_default] of 1740: an error gives no bytes. *)
Definition process_xml (s : str) (st : store) : outcome (list N * store) unit :=
  match json_of_bytes x (utf8 s) with
  | Some (JObj m) => bind (generate_xml_body w junk m st) (fun r => Ok (print_xml (fst r), snd r))
  | _ => Ok ([], st)
  end.
(** handles.rs:1674-1790 [process_body]. [detect_content_type_from_string] always gives a type. *)
Definition process_body (s : str) (given hint : option content_type) (st : store) : outcome (body * store) unit :=
  match s with
  | [] => Ok (BEmpty, st)
  | _ =>
      let detected := detect_text x s in
      let ct := match given with Some c => c | None => match hint with Some c => c | None => detected end end in
      let raw := Ok (BPresent (utf8 s) (Some ct) None, st) in
      if is_json ct then bind (process_json s st) (fun r => Ok (BPresent (utf8 (fst r)) (Some ct) None, snd r))
      else if is_xml ct then
        if is_json detected then bind (process_xml s st) (fun r => Ok (BPresent (fst r) (Some ct) None, snd r)) else raw
      else if is_form_urlencoded ct then
        if is_json detected then
          bind (process_form w junk (json_of_bytes x (utf8 s)) st) (fun r => Ok (BPresent (utf8 (fst r)) (Some ct) None, snd r))
        else raw
      else raw
  end.

Definition type_header : str := S_ "Content-Type".
(** 1866-1875: [entry("Content-Type").or_insert_with(..)]; the name is compared exactly. *)
Definition header_if_vacant (h : option hmap) (ct : content_type) : option hmap :=
  match h with
  | Some m => Some (if obj_has type_header m then m else map_put type_header [ct_show ct] m)
  | None => Some [(type_header, [ct_show ct])]
  end.
(** 1852-1877, 1880-1905: the type of the part, with the body it has, is the hint. *)
Definition part_with_text (s : str) (given : option content_type) (p : fpart) : outcome fpart unit :=
  bind (calc_content_type w x (fp_body p) (fp_headers p)) (fun hint =>
  bind (process_body s given hint (mkStore (fp_rules p) (fp_gens p))) (fun r =>
  bind (calc_content_type w x (fst r) (fp_headers p)) (fun ct =>
    Ok (mkFP (match ct with Some c => header_if_vacant (fp_headers p) c | None => fp_headers p end) (fst r)
             (st_rules (snd r)) (fp_header_rules p) (st_gens (snd r)))))).
(** 1910-1924, 1926-1943: messages; there is no hint. [MessageContents] has [message_content_type] in this repository
    (v4/message_parts.rs:91-93), called [content_type] by the caller. *)
Definition meta_if_vacant (md : list (str * json)) (ct : content_type) : list (str * json) :=
  if obj_has (S_ "contentType") md then md else map_put (S_ "contentType") (JStr (ct_show ct)) md.
Definition msg_with_text (s : str) (given : option content_type) (m : fmsg) : outcome fmsg unit :=
  bind (process_body s given None (mkStore (fm_rules m) (fm_gens m))) (fun r =>
  bind (calc_content_type w x (fst r) (metadata_to_headers w (fm_meta m))) (fun ct =>
    Ok (mkFM (fst r) (match ct with Some c => meta_if_vacant (fm_meta m) c | None => fm_meta m end)
             (st_rules (snd r)) (st_gens (snd r))))).
(** On which part a call works: a response of a synchronous message is a new one. *)
Definition on_side (s : side) (part : fpart -> outcome fpart unit) (msg : fmsg -> outcome fmsg unit) (i : fint) : outcome fint unit :=
  match i, s with
  | FIHttp q p, Request => bind (part q) (fun q => Ok (FIHttp q p))
  | FIHttp q p, Response => bind (part p) (fun p => Ok (FIHttp q p))
  | FIAsync m, _ => bind (msg m) (fun m => Ok (FIAsync m))
  | FISync q l, Request => bind (msg q) (fun q => Ok (FISync q l))
  | FISync q l, Response => bind (msg fmsg_default) (fun m => Ok (FISync q (l ++ [m])))
  end.
Definition is_http (i : fint) : bool := match i with FIHttp _ _ => true | _ => false end.
(** 1831-1948 [pactffi_with_body]; 1846: [ContentType::parse(ct).unwrap()] panics. *)
Definition given_type (ct : option str) : outcome (option content_type) unit :=
  match ct with
  | None => Ok None
  | Some t => match parse_mime x t with Some c => Ok (Some c) | None => Panic end
  end.
Definition with_body (started : bool) (s : side) (ct text : option str) (i : fint) : outcome (fint * bool) unit :=
  bind (given_type ct) (fun given =>
  let text := match text with Some t => t | None => [] end in
  bind (on_side s (part_with_text text given) (msg_with_text text given) i) (fun i => Ok (i, negb started))).

(** ** Bytes *)
(** 2652-2660 [convert_ptr_to_body]; [None] is a NULL pointer. *)
Definition bytes_body (b : option (list N)) (ct : option content_type) : body :=
  match b with None => BNull | Some [] => BEmpty | Some l => BPresent l ct None end.
(** http_parts.rs:78-90 [has_header], 1994-2004. *)
Definition header_if_missing (h : option hmap) (ct : str) : option hmap :=
  match h with
  | Some m => match find_header w m type_header with Some _ => Some m | None => Some (map_put type_header [ct] m) end
  | None => Some [(type_header, [ct])]
  end.
Definition part_with_bytes (b : option (list N)) (ct : str) (typed : option content_type) (rule : bool) (p : fpart) : fpart :=
  mkFP (header_if_missing (fp_headers p) ct) (bytes_body b typed)
    (if rule then x_add_rule (fp_rules p) path_root (XRule (RContentType ct)) And else fp_rules p) (fp_header_rules p) (fp_gens p).
Definition msg_with_bytes (b : option (list N)) (ct : str) (typed : option content_type) (rule : bool) (m : fmsg) : fmsg :=
  mkFM (bytes_body b typed) (map_put (S_ "contentType") (JStr ct) (fm_meta m))
    (if rule then x_add_rule (fm_rules m) path_root (XRule (RContentType ct)) And else fm_rules m) (fm_gens m).
(** 1980-2043 [pactffi_with_binary_body]. *)
Definition with_binary_body (started : bool) (s : side) (ct : option str) (b : option (list N)) (i : fint) : outcome (fint * bool) unit :=
  let ct := match ct with Some t => t | None => S_ "application/octet-stream" end in
  bind (on_side s (fun p => Ok (part_with_bytes b ct (parse_mime x ct) false p)) (fun m => Ok (msg_with_bytes b ct (parse_mime x ct) false m)) i)
    (fun i' => Ok (i', if is_http i then negb started else true)).
(** 2078-2157 [pactffi_with_binary_file], 2338-2343; [spec] is the number of the specification version. *)
Definition with_binary_file (started : bool) (spec : N) (s : side) (ct : option str) (b : option (list N)) (i : fint) : outcome (fint * bool) unit :=
  match ct with
  | None => Ok (i, false)
  | Some ct =>
      bind (on_side s (fun p => Ok (part_with_bytes b ct None (3 <=? spec) p)) (fun m => Ok (msg_with_bytes b ct None (3 <=? spec) m)) i)
        (fun i' => Ok (i', if is_http i then negb started else true))
  end.

(** ** Multipart *)
(** [strip_prefix] and [strip_suffix] of slices. *)
Fixpoint strip_prefix (p l : list N) : option (list N) :=
  match p, l with
  | [], _ => Some l
  | a :: p', b :: l' => if a =? b then strip_prefix p' l' else None
  | _ :: _, [] => None
  end.
Definition strip_suffix (s l : list N) : option (list N) := option_map (@rev N) (strip_prefix (rev s) (rev l)).
Definition or_same (o : option (list N)) (l : list N) : list N := match o with Some r => r | None => l end.
Definition crlf : list N := [13; 10].
Definition marker_of (b : list N) : list N := [45; 45] ++ b ++ crlf.
Definition end_marker_of (b : list N) : list N := [45; 45] ++ b ++ [45; 45] ++ crlf.
(** bodies.rs:27 [MULTIPART_MARKER]: the characters of a boundary. *)
Definition boundary_char (c : N) : bool :=
  ((97 <=? c) && (c <=? 122)) || ((65 <=? c) && (c <=? 90)) || ((48 <=? c) && (c <=? 57)) ||
  existsb (N.eqb c) [39; 40; 41; 43; 95; 44; 45; 46; 47; 58; 61; 63; 32].
Definition marker_at (l : list N) : option (list N) :=
  match strip_prefix [45; 45] l with
  | Some r => let (b, r') := span boundary_char r in match strip_prefix crlf r' with Some _ => Some b | None => None end
  | None => None
  end.
(** 347-359 [contains_existing_multipart]: the first place where the expression matches. It is searched in the text of the body
    ([from_utf8_lossy]), here in its bytes: all the characters it matches are ASCII. *)
Fixpoint find_marker (l : list N) : option (list N) :=
  match marker_at l with
  | Some b => Some b
  | None => match l with [] => None | _ :: l' => find_marker l' end
  end.
Definition existing_marker (b : body) : option (list N) := match b with BPresent l _ _ => find_marker l | _ => None end.
(** 322-337 [part_body_replace_marker]. *)
Definition replace_marker (b : list N) (boundary new : list N) : list N :=
  let b := or_same (strip_prefix (marker_of boundary) b) b in
  let b := or_same (strip_suffix (end_marker_of boundary) b) b in
  marker_of new ++ b ++ end_marker_of new.
(** 307-320 [add_part_to_multipart]. *)
Definition add_part (existing : body) (part : list N) (boundary : list N) : option (list N) :=
  match existing_marker existing with
  | None => None
  | Some marker =>
      let old := body_bytes existing in
      Some (or_same (strip_suffix (end_marker_of marker) old) old ++ replace_marker part boundary marker)
  end.
(** 274-305 [request_multipart], 361-388 [response_multipart]. [part] is the body the multipart crate made, with its type; the
    pattern of the type header is [multipart_pattern]. [DocPath::new_unwrap] panics for what is no path. *)
Definition multipart_pattern : str := S_ "multipart/form-data;(\s*charset=[^;]*;)?\s*boundary=.*".
Definition with_part (part : list N) (part_ct : option content_type) (boundary : str) (ct name : str) (p : fpart) : outcome fpart unit :=
  bind (match path_new (uni_alpha w) (uni_numeric w) type_header with Ok h => Ok h | _ => Panic end) (fun hp =>
  let p1 :=
    match add_part (fp_body p) part (utf8 boundary) with
    | Some bytes => mkFP (fp_headers p) (BPresent bytes (body_content_type (fp_body p)) (match fp_body p with BPresent _ _ h => h | _ => None end))
                         (fp_rules p) (fp_header_rules p) (fp_gens p)
    | None => mkFP (set_header w (fp_headers p) type_header [S_ "multipart/form-data; boundary=" ++ boundary])
                   (BPresent part part_ct None) (fp_rules p)
                   (x_add_rule (fp_header_rules p) hp (XRule (RRegex multipart_pattern)) And) (fp_gens p)
    end in
  Ok (mkFP (fp_headers p1) (fp_body p1) (x_add_rule (fp_rules p1) (push_field path_root name) (XRule (RContentType ct)) And)
           (fp_header_rules p1) (fp_gens p1))).
(** 2372-2440 [pactffi_with_multipart_file_v2]. [made] is what the multipart crate makes of the file: the bytes and its random
    boundary, or an error; [true] is a result without an error. *)
Definition form_data : content_type := content_type_of x (S_ "multipart/form-data").
Definition with_multipart_file (started : bool) (s : side) (ct : option str) (made : option (list N * str)) (name boundary : option str)
  (i : fint) : outcome (fint * bool) unit :=
  let name := match name with Some n => n | None => S_ "file" end in
  match ct with
  | None => Ok (i, false)
  | Some ct =>
      match made, i with
      | Some (bytes, random), FIHttp q p =>
          let given := match boundary with Some b => (replace_marker bytes (utf8 random) (utf8 b), b) | None => (bytes, random) end in
          let step := with_part (fst given) (Some form_data) (snd given) ct name in
          bind (match s with
                | Request => bind (step q) (fun q => Ok (FIHttp q p))
                | Response => bind (step p) (fun p => Ok (FIHttp q p))
                end) (fun i => Ok (i, negb started))
      | _, _ => Ok (i, false)
      end
  end.

(** ** Rules and generators *)
(** What these two calls see of an interaction: the rules and generators of its parts. *)
Definition ruled := (matching_rules * generators)%type.
Inductive rint := RIHttp (q p : ruled) | RIAsync (m : ruled) | RISync (q : ruled) (l : list ruled).
(** handles.rs:2203-2210, 2295-2302: the JSON is put under its name unless the name is there already. *)
Definition wrapped (name : str) (m : list (str * json)) : json :=
  if obj_has name m then JObj m else JObj [(name, JObj m)].
(** matchingrules/mod.rs:1442-1454 [MatchingRules::add_rules] and [merge]. *)
Definition mr_merge (m other : matching_rules) : matching_rules :=
  fold_left (fun m nc => with_category (fst nc) (fun k => cat_add_rules k (snd nc)) m) other m.
(** 2219-2241, 2311-2333: all responses of a synchronous message. *)
Definition on_ruled (s : side) (f : ruled -> ruled) (i : rint) : rint :=
  match i, s with
  | RIHttp q p, Request => RIHttp (f q) p
  | RIHttp q p, Response => RIHttp q (f p)
  | RIAsync m, _ => RIAsync (f m)
  | RISync q l, Request => RISync (f q) l
  | RISync q l, Response => RISync q (map f l)
  end.
(** 2179-2249 [pactffi_with_matching_rules], 2271-2341 [pactffi_with_generators]; a panic while reading is caught (ffi_fn) and
    [false] returned. *)
Definition with_matching_rules (s : side) (text : option str) (i : rint) : rint * bool :=
  match text with
  | None => (i, false)
  | Some t =>
      match json_of_bytes x (utf8 t) with
      | Some (JObj m) =>
          match matchers_from_json w (json_get (S_ "matchingRules") (wrapped (S_ "matchingRules") m)) with
          | Ok rules => (on_ruled s (fun r => (mr_merge (fst r) rules, snd r)) i, true)
          | _ => (i, false)
          end
      | _ => (i, false)
      end
  end.
Definition with_generators (s : side) (text : option str) (i : rint) : rint * bool :=
  match text with
  | None => (i, false)
  | Some t =>
      match json_of_bytes x (utf8 t) with
      | Some (JObj m) =>
          match generators_from_json w (wrapped (S_ "generators") m) with
          | Ok gens => (on_ruled s (fun r => (fst r, add_generators gens (snd r))) i, true)
          | _ => (i, false)
          end
      | _ => (i, false)
      end
  end.
End Body.
