(** Specification of the calls of the C interface that set bodies. *)
From Coq Require Import Ascii String List Arith NArith ZArith Lia Bool.
From Verif Require Import Base PathExp Json Text MatchingRules Matchers Headers ContentType SpecQuery Http Expr Generators RuleExpr Integration SpecIntegration
  FormJson SpecFormJson XmlJson SpecXmlJson Merge PactFile FfiBody.
Import ListNotations.
Open Scope N_scope.

Section Texts.
Variable w : world.
Variable x : externals.
Variable junk : str -> nat.
Variable print_xml : option xtree -> list N.

(** The type a part has before the call: of its body, otherwise of its header, otherwise found in the bytes. *)
Definition header_says (h : option hmap) (t : content_type) : Prop :=
  exists m v vs, h = Some m /\ find_header w m (S_ "content-type") = Some (v :: vs) /\ parse_mime x v = Some t.
Inductive has_type (b : body) (h : option hmap) : option content_type -> Prop :=
| ht_body : forall t, body_content_type b = Some t -> has_type b h (Some t)
| ht_header : forall t, body_content_type b = None -> header_says h t -> has_type b h (Some t)
| ht_found : forall t, body_content_type b = None -> (forall t, ~ header_says h t) -> body_present b = true -> detect_bytes x (body_bytes b) = Some t ->
    has_type b h (Some t)
| ht_none : body_content_type b = None -> (forall t, ~ header_says h t) -> (body_present b = true -> detect_bytes x (body_bytes b) = None) ->
    has_type b h None.

(** The type of a text: the one given, or that of the part, or the one found in the text. *)
Inductive type_chosen (s : str) : option content_type -> option content_type -> content_type -> Prop :=
| tc_given : forall c h, type_chosen s (Some c) h c
| tc_part : forall c, type_chosen s None (Some c) c
| tc_found : type_chosen s None None (detect_text x s).

(** A text that is JSON, or JSON that describes XML or a form. *)
Definition describes_other (s : str) (t : content_type) : Prop :=
  is_json t = false /\ is_json (detect_text x s) = true /\ (is_xml t = true \/ is_form_urlencoded t = true).
Definition container (v : json) : Prop := match v with JObj _ | JArr _ => True | _ => False end.
Definition other_gens_kept (a b : generators) : Prop := forall c p, c <> GcBody -> generator_at c b p = generator_at c a p.
(** The bytes a text becomes, and the rules and generators of the body after the call. *)
Inductive text_becomes (s : str) (t : content_type) (r : xcategory) (g : generators) : list N -> xcategory -> generators -> Prop :=
| tb_as_it_is : is_json t = false -> ~ describes_other s t -> text_becomes s t r g (utf8 s) r g
| tb_other_json : is_json t = true -> (forall v, json_of_bytes x (utf8 s) = Some v -> ~ container v) -> text_becomes s t r g (utf8 s) r g
| tb_json : forall v v' occs r' g', is_json t = true -> json_of_bytes x (utf8 s) = Some v -> container v -> reading w junk exactly [] v v' occs ->
    rules_added path_root occs r r' -> gens_added path_root occs (generator_at GcBody g) (generator_at GcBody g') -> other_gens_kept g g' ->
    text_becomes s t r g (utf8 (json_show w v')) r' g'
| tb_xml : forall m root gs r' g', describes_other s t -> is_xml t = true -> json_of_bytes x (utf8 s) = Some (JObj m) ->
    body_described w junk m root gs -> rules_after gs r r' -> gens_after gs (generator_at GcBody g) (generator_at GcBody g') -> other_gens_kept g g' ->
    text_becomes s t r g (print_xml root) r' g'
| tb_no_xml : describes_other s t -> is_xml t = true -> (forall m, json_of_bytes x (utf8 s) <> Some (JObj m)) -> text_becomes s t r g [] r g
| tb_form : forall v text r' g', describes_other s t -> is_xml t = false -> json_of_bytes x (utf8 s) = Some v ->
    process_form w junk (Some v) (mkStore r g) = Ok (text, mkStore r' g') ->   (* characterised by C109 *)
    text_becomes s t r g (utf8 text) r' g'.

(** The header (the entry of the metadata) is put in if the exact name is not there; everything else stays. *)
Definition put_if_vacant {A} (name : str) (v : option A) (old new : list (str * A)) : Prop :=
  (forall k, k <> name -> entry k new = entry k old) /\
  entry name new = match entry name old with Some u => Some u | None => v end.
Definition headers_of (h : option hmap) : hmap := match h with Some m => m | None => [] end.

(** After a call with the text [s] of the type [given] on a part. *)
Definition text_set (s : str) (given : option content_type) (p p' : fpart) : Prop :=
  fp_header_rules p' = fp_header_rules p /\
  match s with
  | [] => fp_body p' = BEmpty /\ fp_rules p' = fp_rules p /\ fp_gens p' = fp_gens p /\
          exists t, has_type BEmpty (fp_headers p) t /\
            put_if_vacant (S_ "Content-Type") (option_map (fun c => [ct_show c]) t) (headers_of (fp_headers p)) (headers_of (fp_headers p'))
  | _ => exists hint t bytes, has_type (fp_body p) (fp_headers p) hint /\ type_chosen s given hint t /\
      fp_body p' = BPresent bytes (Some t) None /\ text_becomes s t (fp_rules p) (fp_gens p) bytes (fp_rules p') (fp_gens p') /\
      put_if_vacant (S_ "Content-Type") (Some [ct_show t]) (headers_of (fp_headers p)) (headers_of (fp_headers p'))
  end.
Definition meta_type (md : list (str * json)) : option hmap :=
  match entry (S_ "contentType") md with Some v => Some [(S_ "Content-Type", [json_to_string w v])] | None => None end.
Definition message_text_set (s : str) (given : option content_type) (m m' : fmsg) : Prop :=
  match s with
  | [] => fm_body m' = BEmpty /\ fm_rules m' = fm_rules m /\ fm_gens m' = fm_gens m /\
          forall k, entry k (fm_meta m') = entry k (fm_meta m)
  | _ => exists t bytes, type_chosen s given None t /\
      fm_body m' = BPresent bytes (Some t) None /\ text_becomes s t (fm_rules m) (fm_gens m) bytes (fm_rules m') (fm_gens m') /\
      put_if_vacant (S_ "contentType") (Some (JStr (ct_show t))) (fm_meta m) (fm_meta m')
  end.
(** One part changes, or a synchronous message gets a new response; the rest of the interaction stays. *)
Inductive one_side (part : fpart -> fpart -> Prop) (msg : fmsg -> fmsg -> Prop) : Handles.side -> fint -> fint -> Prop :=
| os_request : forall q q' p, part q q' -> one_side part msg Handles.Request (FIHttp q p) (FIHttp q' p)
| os_response : forall q p p', part p p' -> one_side part msg Handles.Response (FIHttp q p) (FIHttp q p')
| os_message : forall s m m', msg m m' -> one_side part msg s (FIAsync m) (FIAsync m')
| os_sync_request : forall q q' l, msg q q' -> one_side part msg Handles.Request (FISync q l) (FISync q' l)
| os_sync_response : forall q l m, msg (mkFM BMissing [] (mkCat CBody []) []) m -> one_side part msg Handles.Response (FISync q l) (FISync q (l ++ [m])).
End Texts.

(** ** Bytes *)
Section Bytes.
Variable w : world.
Variable x : externals.
Definition bytes_given (b : option (list N)) (ct : option content_type) (b' : body) : Prop :=
  (b = None -> b' = BNull) /\ (b = Some [] -> b' = BEmpty) /\ (forall l, b = Some l -> l <> [] -> b' = BPresent l ct None).
(** A rule on the type of the whole body after those there are. *)
Definition rule_added (r : xrule) (p : docpath) (old new : xcategory) : Prop :=
  cat_name new = cat_name old /\
  (forall q, path_expr q <> path_expr p -> hm_get q (cat_rules new) = hm_get q (cat_rules old)) /\
  hm_get p (cat_rules new) = Some (match hm_get p (cat_rules old) with
                                   | Some rl => mkRules (rl_rules rl ++ [r]) (rl_logic rl) (rl_cascaded rl)
                                   | None => mkRules [r] And false
                                   end).
Definition type_rule_added (t : str) : docpath -> xcategory -> xcategory -> Prop := rule_added (XRule (RContentType t)).
(** A header of that name in any case. *)
Definition has_header (h : option hmap) (name : string) : Prop :=
  exists m k v, h = Some m /\ In (k, v) m /\ to_lower w k = to_lower w (S_ name).
Definition bytes_set (b : option (list N)) (t : str) (typed : option content_type) (rule : Prop) (p p' : fpart) : Prop :=
  bytes_given b typed (fp_body p') /\ fp_header_rules p' = fp_header_rules p /\ fp_gens p' = fp_gens p /\
  (rule -> type_rule_added t path_root (fp_rules p) (fp_rules p')) /\ (~ rule -> fp_rules p' = fp_rules p) /\
  (has_header (fp_headers p) "content-type" -> fp_headers p' = fp_headers p) /\
  (~ has_header (fp_headers p) "content-type" ->
     (forall k, k <> S_ "Content-Type" -> entry k (headers_of (fp_headers p')) = entry k (headers_of (fp_headers p))) /\
     entry (S_ "Content-Type") (headers_of (fp_headers p')) = Some [t]).
Definition message_bytes_set (b : option (list N)) (t : str) (typed : option content_type) (rule : Prop) (m m' : fmsg) : Prop :=
  bytes_given b typed (fm_body m') /\ fm_gens m' = fm_gens m /\
  (rule -> type_rule_added t path_root (fm_rules m) (fm_rules m')) /\ (~ rule -> fm_rules m' = fm_rules m) /\
  (forall k, k <> S_ "contentType" -> entry k (fm_meta m') = entry k (fm_meta m)) /\ entry (S_ "contentType") (fm_meta m') = Some (JStr t).
End Bytes.

(** ** Multipart *)
(** "--", the boundary, end of line; after the last part with "--" behind the boundary. *)
Definition line (s : list N) : list N := s ++ [13; 10].
Definition dashes : list N := [45; 45].
Definition multipart (boundary : list N) (parts : list (list N)) : list N :=
  flat_map (fun p => line (dashes ++ boundary) ++ p) parts ++ line (dashes ++ boundary ++ dashes).
(** The characters a boundary may be made of (RFC 2046). *)
Definition boundary_chars : list N :=
  List.concat (map (fun s => S_ s) ["abcdefghijklmnopqrstuvwxyz"; "ABCDEFGHIJKLMNOPQRSTUVWXYZ"; "0123456789"; "'()+_,-./:=? "])%string.
Definition proper (boundary : list N) : Prop := Forall (fun c => In c boundary_chars) boundary.
(** A line with "--" and a boundary somewhere in the bytes; the first one. *)
Definition marked_at (l : list N) (before b : list N) : Prop := proper b /\ exists rest, l = before ++ line (dashes ++ b) ++ rest.
Definition first_marker (l b : list N) : Prop :=
  exists before, marked_at l before b /\ forall before' b', marked_at l before' b' -> (length before <= length before')%nat.

(** One call that adds a file: its type and name, the bytes of the file's part (its headers, an empty line and its contents) and the
    boundary that was drawn for it, and the boundary given. *)
Record file_call := mkFile { f_type : str; f_name : str; f_part : list N; f_drawn : str; f_boundary : option str }.
Definition f_used (c : file_call) : str := match f_boundary c with Some b => b | None => f_drawn c end.
(** A rule on the type of every part, after those there are. *)
Definition types_of (cs : list file_call) (p : docpath) : list xrule :=
  flat_map (fun c => if str_eqb (path_expr p) (path_expr (push_field path_root (f_name c))) then [XRule (RContentType (f_type c))] else []) cs.
Definition types_added (cs : list file_call) (old new : xcategory) : Prop :=
  cat_name new = cat_name old /\
  forall p, hm_get p (cat_rules new) =
    match hm_get p (cat_rules old) with
    | Some rl => Some (mkRules (rl_rules rl ++ types_of cs p) (rl_logic rl) (rl_cascaded rl))
    | None => match types_of cs p with [] => None | rs => Some (mkRules rs And false) end
    end.

(** The rule for the header of the type: added after those there are. *)
Definition type_at : docpath := mkPath [TRoot; TField (S_ "Content-Type")] (S_ "Content-Type").
Definition any_multipart : xrule := XRule (RRegex (S_ "multipart/form-data;(\s*charset=[^;]*;)?\s*boundary=.*")).

(** ** Rules and generators *)
(** The rules of a collection at a path of a category. *)
Fixpoint rules_at (n : category_name) (m : matching_rules) (p : docpath) : option rulelist :=
  match m with
  | [] => None
  | (n', c) :: m' => if cat_eqb n n' then hm_get p (cat_rules c) else rules_at n m' p
  end.
(** Those there were, then the new ones; how they are combined is said by those there were. *)
Definition joined (old new : option rulelist) : option rulelist :=
  match old, new with
  | Some a, Some b => Some (mkRules (rl_rules a ++ rl_rules b) (rl_logic a) (rl_cascaded a))
  | Some a, None => Some a
  | None, o => o
  end.
Definition rules_joined (rules : matching_rules) (r r' : ruled) : Prop :=
  snd r' = snd r /\ forall n p, rules_at n (fst r') p = joined (rules_at n (fst r) p) (rules_at n rules p).
(** A new generator replaces the one there was at its path. *)
Definition generators_put (gens : generators) (r r' : ruled) : Prop :=
  fst r' = fst r /\ forall c p, generator_at c (snd r') p = match generator_at c gens p with Some g => Some g | None => generator_at c (snd r) p end.
(** The part a call works on; of a synchronous message's responses it is all of them. *)
Inductive ruled_side (R : ruled -> ruled -> Prop) : Handles.side -> rint -> rint -> Prop :=
| rs_request : forall q q' p, R q q' -> ruled_side R Handles.Request (RIHttp q p) (RIHttp q' p)
| rs_response : forall q p p', R p p' -> ruled_side R Handles.Response (RIHttp q p) (RIHttp q p')
| rs_message : forall s m m', R m m' -> ruled_side R s (RIAsync m) (RIAsync m')
| rs_sync_request : forall q q' l, R q q' -> ruled_side R Handles.Request (RISync q l) (RISync q' l)
| rs_sync_responses : forall q l l', Forall2 R l l' -> ruled_side R Handles.Response (RISync q l) (RISync q l').
(** The document of a text: the value under the name, or the object itself if it has no such name. *)
Definition under (name : string) (m : list (str * json)) : json :=
  match entry (S_ name) m with Some v => v | None => JObj m end.
