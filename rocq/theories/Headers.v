(** Model of header matching (rust/pact_matching/src/headers.rs, the header context of
    lib.rs) and of the JSON form of headers (pact_models/src/headers.rs, json_utils.rs).
    Messages are not modelled. *)
From Coq Require Import Ascii String List Arith NArith ZArith Lia Bool.
From Verif Require Import Base PathExp Json Text MatchingRules Matchers JsonCompare.
Import ListNotations.
Open Scope N_scope.

(** [HashMap<String, Vec<String>>], in the iteration order of the map. *)
Definition hmap := list (str * list str).

(** pact_models/src/headers.rs:1-12. *)
Definition PARAMETERISED_HEADERS : list str := [S_ "accept"; S_ "content-type"].
Definition SINGLE_VALUE_HEADERS : list str :=
  [S_ "date"; S_ "accept-datetime"; S_ "if-modified-since"; S_ "if-unmodified-since"; S_ "expires";
   S_ "retry-after"; S_ "last-modified"; S_ "set-cookie"; S_ "user-agent"].

(** [HashMap::insert] with a [DocPath] key, and with a string key. *)
Fixpoint hm_insert {A} (k : docpath) (v : A) (m : list (docpath * A)) : list (docpath * A) :=
  match m with
  | [] => [(k, v)]
  | (k', x) :: m' => if path_eqb k k' then (k', v) :: m' else (k', x) :: hm_insert k v m'
  end.
Fixpoint sm_insert {A} (k : str) (v : A) (m : list (str * A)) : list (str * A) :=
  match m with
  | [] => [(k, v)]
  | (k', x) :: m' => if str_eqb k k' then (k', v) :: m' else (k', x) :: sm_insert k v m'
  end.

Section Headers.
Variable w : world.

(** lib.rs:677-696 [HeaderMatchingContext::new]: rule paths in lower case; 735-744 its [clone_with]. *)
Definition header_context (c : context) : context :=
  mkCtx (allow c) (mkCat (cat_name (matchers c))
    (fold_left (fun m pr => hm_insert (to_lower_case (to_lower w) (fst pr)) (snd pr) m) (cat_rules (matchers c)) [])).
Definition header_clone (c : context) (m : category) : context := header_context (mkCtx (allow c) m).

(** headers.rs:17-19 [strip_whitespace] with the separator [;]. *)
Definition strip_parts (s : str) : list str := filter nonempty (map (trim w) (split_on 59 s)).
(** headers.rs:21-31 [parse_charset_parameters]. *)
Definition parse_parameters (ps : list str) : list (str * str) :=
  fold_left (fun m p => match split_once 61 p with
    | Some (k, v) => sm_insert (trim w k) (trim w v) m
    | None => m
    end) ps [].
(** [slice::split_first().unwrap_or((&"", &[]))]. *)
Definition first_and_rest (l : list str) : str * list str := match l with x :: r => (x, r) | [] => ([], []) end.
(** headers.rs:33-73 [match_parameter_header]. *)
Definition match_parameter_header (e a : str) : list mismatch_kind :=
  let (et, ep) := first_and_rest (strip_parts e) in
  let (at_, ap) := first_and_rest (strip_parts a) in
  if str_eqb et at_ then
    let am := parse_parameters ap in
    flat_map (fun kv => match obj_get (fst kv) am with
      | Some v => if str_eqb (ascii_lower (snd kv)) (ascii_lower v) then [] else [KParameters]
      | None => [KParameters]
      end) (parse_parameters ep)
  else [KParameters].

(** headers.rs:75-133 [match_header_value], the mismatch descriptions; [lkey] is [key.to_lowercase()]. *)
Definition header_value_kinds (lkey : str) (index : N) (e a : str) (c : context) : list mismatch_kind :=
  let path := join path_root lkey in
  let indexed := join path (show_N index) in
  let e := trim w e in
  let a := trim w a in
  if ctx_matcher_is_defined c path then match_values (str_matches w e a) (ctx_select_best c path)
  else if ctx_matcher_is_defined c indexed then match_values (str_matches w e a) (ctx_select_best c indexed)
  else if str_in lkey PARAMETERISED_HEADERS then match_parameter_header e a
  else if str_matches w e a REquality false then [] else [KNotEqual].
Definition match_header_value (key : str) (index : N) (e a : str) (c : context) : list mismatch :=
  map (mkMM key) (header_value_kinds (to_lower w key) index e a c).

(** headers.rs:135-140 [find_entry]: the first key in iteration order that is equal ignoring case. *)
Definition find_header (m : hmap) (key : str) : option (list str) :=
  match find (fun kv => str_eqb (to_lower w (fst kv)) (to_lower w key)) m with
  | Some kv => Some (snd kv)
  | None => None
  end.

(** headers.rs:170-190: the expected values, padded with empty strings to the number
    of actual values ([pad_using]), one by one. *)
Definition pad_values (e : list str) (n : nat) : list str := e ++ repeat [] (n - length e).
Fixpoint header_elements (key : str) (c : context) (i : N) (e a : list str) : list mismatch :=
  match e with
  | [] => []
  | x :: e' =>
      match a with
      | y :: a' => match_header_value key i x y c ++ header_elements key c (i + 1) e' a'
      | [] => mkMM key (KMissing i) :: header_elements key c (i + 1) e' []
      end
  end.
(** headers.rs:142-204 [match_header_maps], the result for one expected header. *)
Definition match_header_entry (actual : hmap) (c : context) (key : str) (value : list str) : list mismatch :=
  match find_header actual key with
  | None => [mkMM key KAbsent]
  | Some actual_values =>
      if negb (nonempty value) && nonempty actual_values then [mkMM key KNotEmpty]
      else match value, actual_values with
      | [x], [y] => match_header_value key 0 x y c
      | _, _ =>
          let path := join path_root (to_lower w key) in
          if ctx_matcher_is_defined c path then
            compare_lists_with_matchingrules str str_eqb header_clone
              (fun _ e a c => match_header_value key 0 e a c)
              path (ctx_select_best c path) value actual_values (header_clone c (matchers c))
          else header_elements key c 0 (pad_values value (length actual_values)) actual_values
      end
  end.
Definition match_header_maps (expected actual : hmap) (c : context) : list (str * list mismatch) :=
  map (fun kv => (fst kv, match_header_entry actual c (fst kv) (snd kv))) expected.
(** headers.rs:207-224 [match_headers]. *)
Definition match_headers (expected actual : option hmap) (c : context) : list (str * list mismatch) :=
  match actual, expected with
  | Some a, Some e => match_header_maps e a c
  | None, Some e => map (fun kv => (fst kv, [mkMM (fst kv) KAbsent])) e
  | _, None => []
  end.

(** * JSON *)
(** pact_models/src/headers.rs:31-37 [parse_header]. *)
Definition parse_header (name value : str) : list str :=
  if str_in (to_lower w name) SINGLE_VALUE_HEADERS then [trim w value]
  else map (trim w) (split_on 44 value).
(** json_utils.rs:112-129 [headers_from_json]: the values of one header. *)
Definition header_values (key : str) (val : json) : list str :=
  match val with
  | JStr s => parse_header key s
  | JArr l => map (fun v => match v with JStr s => s | _ => json_show w v end) l
  | v => [json_show w v]
  end.
Definition headers_from_json (request : json) : option hmap :=
  match json_get (S_ "headers") request with
  | Some (JObj m) => Some (map (fun kv => (fst kv, header_values (fst kv) (snd kv))) m)
  | _ => None
  end.
(** json_utils.rs:132-139 [headers_to_json]. *)
Definition headers_to_json (m : hmap) : json :=
  JObj (fold_left (fun acc kv => obj_insert (fst kv) (JStr (join_with (S_ ", ") (snd kv))) acc) m []).
End Headers.
