(** Model of rust/pact_matching/src/binary_utils.rs: comparing MIME multipart bodies.

    The splitting of a body into its fields (crate multer) is outside, and so is the decoding of texts that are not UTF-8. The time
    limit of 30 seconds (binary_utils.rs:317) is not modelled, nor are plugins. *)
From Coq Require Import Ascii String List Arith NArith ZArith Lia Bool.
From Verif Require Import Base PathExp Json Text MatchingRules Matchers JsonCompare Headers Query ContentType Http Base64.
Import ListNotations.
Open Scope N_scope.

(** A field as multer gives it: index, name, file name, content type, bytes and headers. A [HeaderMap] has lower case names and at
    least one value for each of them. *)
Definition header_map := list (str * (list N * list (list N))).
Record field := mkField { fd_index : N; fd_name : option str; fd_file_name : option str; fd_type : option content_type;
  fd_data : list N; fd_headers : header_map }.

(** What is outside. *)
Record splitter := mkSplit {
  split_fields : str -> list N -> option (list field); (* the boundary parameter of the content type, and multer *)
  header_name_ok : str -> bool;                          (* HeaderName::from_bytes *)
  header_value_ok : str -> bool;                         (* HeaderValue::try_from and to_str *)
  lossy : list N -> str                                  (* String::from_utf8_lossy of bytes that are not UTF-8 *)
}.

(** binary_utils.rs:204-265 [MimePart], [MimeField], [MimeFile]. *)
Record mime_part := mkMime { mp_index : N; mp_name : str; mp_is_file : bool; mp_type : option content_type; mp_data : list N;
  mp_headers : header_map }.

Section Multipart.
Variable w : world.
Variable x : externals.
Variable sp : splitter.

Definition first_value (k : str) (h : header_map) : option (list N) :=
  match obj_get k h with Some v => Some (fst v) | None => None end.
Definition text_lossy (b : list N) : str := match from_utf8 b with Some s => s | None => lossy sp b end.

(** 221-238, 251-268 [decode_data], then the data as they are when they cannot be decoded. *)
Definition decoded (p : mime_part) : list N :=
  match first_value (S_ "content-transfer-encoding") (mp_headers p) with
  | Some e => if str_eqb (to_lower w (text_lossy e)) (S_ "base64") then
                match b64_decode (mp_data p) with Some d => d | None => mp_data p end
              else mp_data p
  | None => mp_data p
  end.

(** 733-776 [parse_multipart]: a part with a content disposition and without a file name is a field, all others are files. *)
Definition to_part (f : field) : mime_part :=
  let file := match first_value (S_ "content-disposition") (fd_headers f) with
              | Some _ => match fd_file_name f with Some _ => true | None => false end
              | None => true
              end in
  mkMime (fd_index f) (match fd_name f with Some n => n | None => [] end) file (if file then fd_type f else None) (fd_data f) (fd_headers f).
(** 779-811 [get_multipart_boundary], [get_http_header_map]: the first value of the content type header. *)
Definition type_value (h : option hmap) : option str :=
  match h with
  | Some m =>
      hd_error (flat_map (fun kv => if header_name_ok sp (fst kv) && str_eqb (to_lower w (fst kv)) (S_ "content-type")
                                    then filter (header_value_ok sp) (snd kv) else []) m)
  | None => None
  end.
Definition parse_multipart (b : list N) (h : option hmap) : option (list mime_part) :=
  match type_value h with
  | Some ct => option_map (map to_part) (split_fields sp ct b)
  | None => None
  end.

(** 506-567 [match_headers]. *)
Definition optional_header (k : str) : bool :=
  str_eqb k (S_ "content-type") || str_eqb k (S_ "content-disposition") || str_eqb k (S_ "content-transfer-encoding").
Definition match_part_header (path : docpath) (hc : context) (actual : header_map) (kv : str * (list N * list (list N))) : list mismatch :=
  let kp := join path (fst kv) in
  let e := text_lossy (fst (snd kv)) in
  match first_value (fst kv) actual with
  | Some v =>
      let a := text_lossy v in
      map (mm kp)
        (if direct_any_matcher hc kp then match_values (str_matches w e a) (ctx_select_best hc kp)
         else if str_eqb (fst kv) (S_ "content-disposition") then []
         else if str_matches w e a REquality false then [] else [KNotEqual])
  | None => if optional_header (fst kv) then [] else [mm kp KAbsent]
  end.
Definition match_part_headers (path : docpath) (e a : header_map) (c : context) : list mismatch :=
  flat_map (match_part_header path (header_context w c) a) e.

(** 458-462, 634-638: the path of a part. *)
Definition part_path (p : mime_part) : docpath :=
  join path_root (match mp_name p with [] => show_N (mp_index p) | n => n end).
(** 450-503 [match_field]. *)
Definition match_field (e a : mime_part) (c : context) : list mismatch :=
  let path := part_path e in
  let es := text_lossy (decoded e) in
  let as_ := text_lossy (decoded a) in
  match_part_headers path (mp_headers e) (mp_headers a) c ++
  map (mm path)
    (if ctx_matcher_is_defined c path then match_values (str_matches w es as_) (ctx_select_best c path)
     else if str_matches w es as_ REquality false then [] else [KNotEqual]).

(** 667-681: the rules below the path of the part, relative to the part. *)
Definition child_path (n : nat) (p : docpath) : docpath := from_tokens (TRoot :: skipn n (path_tokens p)).
Definition rules_below (path : docpath) (c : context) : context :=
  mkCtx (allow c) (mkCat (cat_name (matchers c))
    (fold_left (fun m pr => if matches_path path (to_vec (fst pr))
                            then hm_insert (child_path (length (path_tokens path)) (fst pr)) (snd pr) m else m)
       (cat_rules (matchers c)) [])).
Definition type_or_default (o : option content_type) : content_type := match o with Some ct => ct | None => ct_default end.
(** lib.rs:1223-1238 [mismatches]; the entry for a type mismatch has no path. *)
Definition result_mismatches (r : body_result) : list mismatch :=
  match r with
  | BodyOk => []
  | BodyTypeMismatch => [mkMM [] KType]
  | BodyMismatches g => flat_map snd g
  end.
(** 622-730 [match_file_part]. *)
Definition match_file_part (e a : mime_part) (c : context) : outcome (list mismatch) unit :=
  let path := part_path e in
  let ect := type_or_default (mp_type e) in
  let act := type_or_default (mp_type a) in
  bind (if is_unknown ect || is_unknown act || is_equivalent_to ect act || is_equivalent_to ect (base_type act) then
          compare_bodies w x ect (mkPart None (BPresent (decoded e) (Some ect) None))
                                 (mkPart None (BPresent (decoded a) (Some act) None)) (rules_below path c)
        else Ok BodyTypeMismatch) (fun r =>
    Ok (match_part_headers path (mp_headers e) (mp_headers a) c ++ result_mismatches r)).

(** 419-447 [match_mime_part]. *)
Definition match_mime_part (e a : mime_part) (c : context) : outcome (list mismatch) unit :=
  match mp_is_file e, mp_is_file a with
  | false, false => Ok (match_field e a c)
  | true, true => match_file_part e a c
  | _, _ => Ok [root_mm KType]
  end.
(** 379-386: the part of the actual body that is compared with an expected part. *)
Definition partner (e : mime_part) (actual : list mime_part) : option mime_part :=
  find (fun a => match mp_name a with [] => mp_index a =? mp_index e | n => str_eqb n (mp_name e) end) actual.
Fixpoint match_parts (expected actual : list mime_part) (c : context) : outcome (list mismatch) unit :=
  match expected with
  | [] => Ok []
  | e :: es =>
      bind (match partner e actual with
            | Some a => match_mime_part e a c
            | None => Ok [root_mm KAbsent]
            end) (fun ms => bind (match_parts es actual c) (fun rest => Ok (ms ++ rest)))
  end.
(** 339-415 [match_mime_multipart_inner]. *)
Definition multipart_inner (eh : option hmap) (eb : body) (ah : option hmap) (ab : body) (c : context) : outcome (list mismatch) unit :=
  match parse_multipart (body_bytes eb) eh, parse_multipart (body_bytes ab) ah with
  | Some es, Some as_ => match_parts es as_ c
  | None, None => Ok [root_mm KUnreadable; root_mm KUnreadable]
  | _, _ => Ok [root_mm KUnreadable]
  end.
(** 271-337 [match_mime_multipart]: the comparison runs on another thread; a panic there is reported as a mismatch. *)
Definition match_mime_multipart (eh : option hmap) (eb : body) (ah : option hmap) (ab : body) (c : context) : list mismatch :=
  match multipart_inner eh eb ah ab c with
  | Ok ms => ms
  | Err _ | Panic => [root_mm KUnreadable]
  end.
End Multipart.

(** A part that is a multipart body again is compared by the same function, without headers (binary_utils.rs:655-662): the
    comparison of requests and responses with this one for multipart bodies, where the parts of parts are compared by [nested]. *)
Definition with_multipart (x : externals) (f : option hmap -> body -> option hmap -> body -> context -> list mismatch) : externals :=
  mkExt (parse_mime x) (detect_text x) (detect_bytes x) (json_of_bytes x) (form_of_bytes x) (bytes_content_type_ok x) (match_xml x) f.
Definition nested_multipart (w : world) (x : externals) (sp : splitter) := match_mime_multipart w x sp.
Definition multipart_ext (w : world) (x : externals) (sp : splitter) : externals :=
  with_multipart x (match_mime_multipart w (with_multipart x (nested_multipart w x sp)) sp).
