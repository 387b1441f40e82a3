(** Specification vocabulary for the meaning of single rules on single values. *)
From Coq Require Import Ascii String List Arith NArith ZArith Lia Bool.
From Verif Require Import Base PathExp SpecPath Json MatchingRules Matchers JsonCompare SpecMatch.
Import ListNotations.
Open Scope N_scope.

(** Whole numbers and numbers with a fraction or exponent, as serde_json reads them. *)
Definition whole_number (j : json) : Prop := (exists n, j = JNum (PosInt n)) \/ (exists z, j = JNum (NegInt z)).
Definition fractional_number (j : json) : Prop := exists f, j = JNum (Float f).
Definition has_part (s sub : str) : Prop := exists x y, s = x ++ sub ++ y.
(** null, "", [] and {}. *)
Definition blank_json (j : json) : Prop := j = JNull \/ j = JStr [] \/ j = JArr [] \/ j = JObj [].
Definition true_or_false (s : str) : Prop := s = S_ "true" \/ s = S_ "false".

(** The kinds of rule that look at one value only, and when the actual value satisfies them. *)
Definition value_rule (r : rule) : Prop :=
  match r with
  | RRegex _ | RInclude _ | RNumber | RInteger | RDecimal | RNull | RBoolean | RNotEmpty | RSemver
  | RDate _ | RTime _ | RTimestamp _ => True
  | _ => False
  end.
Definition format_or (s d : str) : str := if str_eqb s [] then d else s.
(** A JSON value: strings are read as their text, other values as their JSON form. *)
Definition text_of (w : world) (j : json) : str := match j with JStr s => s | _ => json_show w j end.
(** Date and time rules read null as the empty text. *)
Definition date_text (w : world) (j : json) : str := match j with JNull => [] | _ => text_of w j end.
Definition json_satisfies (w : world) (r : rule) (a : json) : Prop :=
  match r with
  | RRegex pat => regex_match w pat (text_of w a) = Some true
  | RInclude sub => has_part (text_of w a) sub
  | RNumber => type_of a = TyNumber
  | RInteger => whole_number a
  | RDecimal => fractional_number a
  | RNull => a = JNull
  | RBoolean => type_of a = TyBool \/ (exists s, a = JStr s /\ true_or_false s)
  | RNotEmpty => ~ blank_json a
  | RSemver => exists s, a = JStr s /\ semver_ok w s = true
  | RDate f => datetime_ok w (date_text w a) (format_or f (S_ "yyyy-MM-dd")) = true
  | RTime f => datetime_ok w (date_text w a) (format_or f (S_ "HH:mm:ss")) = true
  | RTimestamp f => datetime_ok w (date_text w a) (format_or f (S_ "yyyy-MM-dd'T'HH:mm:ssXXX")) = true
  | _ => False
  end.
(** A text (path, header, query parameter). *)
Definition digits_only (s : str) : Prop := s <> [] /\ Forall (fun c => 48 <= c <= 57) s.
Definition unsigned_number (s : str) : Prop :=
  exists ds, (s = ds \/ s = S_ "+" ++ ds) /\ digits_only ds /\ dec_value ds 0 < 2 ^ 64.
Definition text_satisfies (w : world) (r : rule) (e a : str) : Prop :=
  match r with
  | REquality => e = a
  | RType | RMinType _ | RMaxType _ | RMinMaxType _ _ => True
  | RRegex pat => regex_match w pat a = Some true
  | RInclude sub => has_part a sub
  | RNumber | RDecimal => parse_float_ok w a = true
  | RInteger => unsigned_number a
  | RBoolean => true_or_false a
  | RNotEmpty => a <> []
  | RSemver => semver_ok w a = true
  | RDate f => datetime_ok w a (format_or f (S_ "yyyy-MM-dd")) = true
  | RTime f => datetime_ok w a (format_or f (S_ "HH:mm:ss")) = true
  | RTimestamp f => datetime_ok w a (format_or f (S_ "yyyy-MM-dd'T'HH:mm:ssXXX")) = true
  | RStatusCode st => exists c, unsigned_number a /\ parse_usize a = Some c /\ c < 65536 /\ in_class st c
  | RNull => False
  | _ => True
  end.
Definition text_rule (r : rule) : Prop :=
  match r with
  | RArrayContains _ | REachKey _ | REachValue _ | RValues | RContentType _ => False
  | _ => True
  end.

(** A location: each of its steps accepts its own text (indices fit in 64 bits). *)
Definition concrete (p : docpath) : Prop := Forall (fun t => match t with TIndex i => i < 2 ^ 64 | _ => True end) (path_tokens p).

(** The names a matching rule may be written with, and the rule each of them denotes. *)
Definition attr (k : string) (m : list (str * json)) (v : json) : Prop := obj_get (S_ k) m = Some v.
Inductive named (m : list (str * json)) : str -> rule -> Prop :=
| nm_equality : named m (S_ "equality") REquality
| nm_regex : forall s, attr "regex" m (JStr s) -> named m (S_ "regex") (RRegex s)
| nm_include : forall s, attr "value" m (JStr s) -> named m (S_ "include") (RInclude s)
| nm_type : obj_get (S_ "min") m = None -> obj_get (S_ "max") m = None -> named m (S_ "type") RType
| nm_type_min : forall n, attr "min" m (JNum (PosInt n)) -> obj_get (S_ "max") m = None -> named m (S_ "type") (RMinType n)
| nm_type_max : forall n, obj_get (S_ "min") m = None -> attr "max" m (JNum (PosInt n)) -> named m (S_ "type") (RMaxType n)
| nm_type_minmax : forall a b, attr "min" m (JNum (PosInt a)) -> attr "max" m (JNum (PosInt b)) -> named m (S_ "type") (RMinMaxType a b)
| nm_min : forall k n, In k [S_ "min"; S_ "min-type"] -> attr "min" m (JNum (PosInt n)) -> named m k (RMinType n)
| nm_max : forall k n, In k [S_ "max"; S_ "max-type"] -> attr "max" m (JNum (PosInt n)) -> named m k (RMaxType n)
| nm_number : named m (S_ "number") RNumber
| nm_integer : named m (S_ "integer") RInteger
| nm_decimal : forall k, In k [S_ "decimal"; S_ "real"] -> named m k RDecimal
| nm_boolean : named m (S_ "boolean") RBoolean
| nm_null : named m (S_ "null") RNull
| nm_values : named m (S_ "values") RValues
| nm_semver : named m (S_ "semver") RSemver
| nm_not_empty : forall k, In k [S_ "notEmpty"; S_ "not-empty"] -> named m k RNotEmpty
| nm_timestamp : forall k f, In k [S_ "timestamp"; S_ "datetime"] -> attr "format" m (JStr f) -> named m k (RTimestamp f)
| nm_date : forall f, attr "format" m (JStr f) -> named m (S_ "date") (RDate f)
| nm_time : forall f, attr "format" m (JStr f) -> named m (S_ "time") (RTime f)
| nm_content_type : forall k v, In k [S_ "contentType"; S_ "content-type"] -> attr "value" m (JStr v) -> named m k (RContentType v)
| nm_status : forall k st s, In k [S_ "statusCode"; S_ "status-code"] -> attr "status" m (JStr s) ->
    In (s, st) [(S_ "info", HInformation); (S_ "success", HSuccess); (S_ "redirect", HRedirect);
                (S_ "clientError", HClientError); (S_ "serverError", HServerError);
                (S_ "nonError", HNonError); (S_ "error", HError)] -> named m k (RStatusCode st).
Definition known_names : list str :=
  map S_ ["equality"; "regex"; "include"; "type"; "min"; "min-type"; "max"; "max-type"; "number"; "integer"; "decimal";
          "real"; "boolean"; "null"; "values"; "semver"; "notEmpty"; "not-empty"; "timestamp"; "datetime"; "date"; "time";
          "contentType"; "content-type"; "statusCode"; "status-code"; "arrayContains"; "array-contains";
          "eachKey"; "each-key"; "eachValue"; "each-value"]%string.
(** The names of the rule categories. *)
Definition category_names : list (string * category_name) :=
  [("method", CMethod); ("path", CPath); ("header", CHeader); ("headers", CHeader); ("query", CQuery);
   ("body", CBody); ("status", CStatus); ("contents", CContents); ("metadata", CMetadata)]%string.
