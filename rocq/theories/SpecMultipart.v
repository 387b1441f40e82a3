(** Specification of the comparison of MIME multipart bodies: which part of the actual body is compared with an expected one, and
    when the two agree. *)
From Coq Require Import Ascii String List Arith NArith ZArith Lia Bool.
From Verif Require Import Base PathExp SpecPath Json Text MatchingRules SpecRules Matchers JsonCompare SpecMatch SpecValues SpecBody Headers Query
  ContentType Http SpecXml Multipart.
Import ListNotations.
Open Scope N_scope.

(** The part an expected one is compared with: the first one of the actual body that has its name, or that has no name and its index. *)
Definition same_part (e a : mime_part) : Prop := (mp_name a = [] /\ mp_index a = mp_index e) \/ (mp_name a <> [] /\ mp_name a = mp_name e).
Definition compared_with (e a : mime_part) (actual : list mime_part) : Prop :=
  exists l r, actual = l ++ a :: r /\ same_part e a /\ forall a', In a' l -> ~ same_part e a'.

(** Where the rules for a part are written: [$.name], and [$.index] for one without a name. *)
Definition place (p : mime_part) (path : docpath) : Prop :=
  (mp_name p <> [] /\ path = join path_root (mp_name p)) \/ (mp_name p = [] /\ path = join path_root (show_N (mp_index p))).

Section Agree.
Variables (w : world) (x : externals) (sp : splitter) (c : context).

(** The rule paths in lower case are those of header rules. *)
Definition rule_for (m : category) (p : docpath) : Prop := exists q, In q (cat_rules m) /\ exactly_for p (fst q).
Definition header_agrees (path : docpath) (actual : header_map) (k : str) (v : list N) : Prop :=
  let m := matchers (header_context w c) in
  let p := join path k in
  match first_value k actual with
  | Some v' => (rule_for m p /\ governed m p (fun r cascaded => xtext_satisfies w r cascaded (text_lossy sp v) (text_lossy sp v'))) \/
               (~ rule_for m p /\ (k = S_ "content-disposition" \/ text_lossy sp v = text_lossy sp v'))
  | None => k = S_ "content-type" \/ k = S_ "content-disposition" \/ k = S_ "content-transfer-encoding"
  end.
Definition headers_agree (path : docpath) (expected actual : header_map) : Prop :=
  forall k v more, In (k, (v, more)) expected -> header_agrees path actual k v.

(** Files of these types can be compared. *)
Definition types_comparable (e a : content_type) : Prop :=
  is_unknown e = true \/ is_unknown a = true \/ is_equivalent_to e a = true \/ is_equivalent_to e (base_type a) = true.
Definition file_type (p : mime_part) (ct : content_type) : Prop := mp_type p = Some ct \/ (mp_type p = None /\ ct = ct_default).

Inductive parts_agree (e a : mime_part) : Prop :=
| pa_fields : forall path, mp_is_file e = false -> mp_is_file a = false -> place e path -> headers_agree path (mp_headers e) (mp_headers a) ->
    governed (matchers c) path (fun r cascaded => xtext_satisfies w r cascaded (text_lossy sp (decoded w sp e)) (text_lossy sp (decoded w sp a))) ->
    parts_agree e a
| pa_files : forall path te ta, mp_is_file e = true -> mp_is_file a = true -> place e path -> headers_agree path (mp_headers e) (mp_headers a) ->
    file_type e te -> file_type a ta -> types_comparable te ta ->
    compare_bodies w x te (mkPart None (BPresent (decoded w sp e) (Some te) None)) (mkPart None (BPresent (decoded w sp a) (Some ta) None))
      (rules_below path c) = Ok BodyOk ->
    parts_agree e a.
Definition body_agrees (expected actual : list mime_part) : Prop :=
  forall e, In e expected -> exists a, compared_with e a actual /\ parts_agree e a.
End Agree.

(** The rules for the content of a file: those written for its place or below it, as seen from there. *)
Definition seen_from (path q : docpath) (q' : docpath) : Prop := q' = from_tokens (TRoot :: skipn (length (path_tokens path)) (path_tokens q)).
Definition written_below (path : docpath) (q : docpath) : Prop := candidate (to_vec q) path.
