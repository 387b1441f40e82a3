(** Model of content types and bodies: rust/pact_models/src/content_types.rs and bodies.rs. *)
From Coq Require Import Ascii String List Arith NArith ZArith Lia Bool.
From Verif Require Import Base PathExp Json Text MatchingRules Matchers.
Import ListNotations.
Open Scope N_scope.

(** content_types.rs:18-27 [struct ContentType]; the attributes (a [BTreeMap]) in
    ascending order of the names. *)
Record content_type := mkCT {
  main_type : str; sub_type : str; attributes : list (str * str); suffix : option str }.
(** content_types.rs:178-187 [default]. *)
Definition ct_default : content_type := mkCT (S_ "*") (S_ "*") [] None.
Definition attr_eqb (a b : str * str) : bool := str_eqb (fst a) (fst b) && str_eqb (snd a) (snd b).
(** The derived [PartialEq]. *)
Definition ct_eqb (a b : content_type) : bool :=
  str_eqb (main_type a) (main_type b) && str_eqb (sub_type a) (sub_type b) &&
  list_eqb attr_eqb (attributes a) (attributes b) &&
  match suffix a, suffix b with Some x, Some y => str_eqb x y | None, None => true | _, _ => false end.

Definition main_is (c : content_type) (s : str) : bool := str_eqb (main_type c) s.
Definition sub_is (c : content_type) (s : str) : bool := str_eqb (sub_type c) s.
(** [self.suffix.as_ref().unwrap_or(&String::default()) == s] for a non-empty s. *)
Definition suffix_is (c : content_type) (s : str) : bool :=
  str_eqb (match suffix c with Some x => x | None => [] end) s.

(** content_types.rs:94-98 [is_json]. *)
Definition is_json (c : content_type) : bool :=
  main_is c (S_ "application") &&
  (starts_with (S_ "json") (sub_type c) || suffix_is c (S_ "json") || sub_is c (S_ "graphql")).
(** content_types.rs:101-104 [is_xml]. *)
Definition is_xml (c : content_type) : bool :=
  (main_is c (S_ "application") || main_is c (S_ "text")) && (sub_is c (S_ "xml") || suffix_is c (S_ "xml")).
(** content_types.rs:107-109 [is_strict_xml]. *)
Definition is_strict_xml (c : content_type) : bool :=
  (main_is c (S_ "application") || main_is c (S_ "text")) && sub_is c (S_ "xml").
(** content_types.rs:163-167, 73-75 [is_known_text_type]; 169-171 [is_form_urlencoded]. *)
Definition is_form_urlencoded (c : content_type) : bool :=
  main_is c (S_ "application") && sub_is c (S_ "x-www-form-urlencoded").
(** content_types.rs:112-114 [is_text]. *)
Definition is_text (c : content_type) : bool :=
  main_is c (S_ "text") || is_xml c || is_json c || is_form_urlencoded c.
(** content_types.rs:117-123 [is_binary]. *)
Definition is_binary (c : content_type) : bool :=
  if main_is c (S_ "audio") || main_is c (S_ "font") || main_is c (S_ "image") || main_is c (S_ "video") then true
  else if main_is c (S_ "text") then false
  else negb (is_text c).
(** content_types.rs:126-139 [base_type]. *)
Definition base_type (c : content_type) : content_type :=
  match suffix c with
  | Some s => mkCT (main_type c) s [] None
  | None => mkCT (main_type c) (sub_type c) [] None
  end.
(** content_types.rs:142-144 [is_unknown]. *)
Definition is_unknown (c : content_type) : bool := main_is c (S_ "*") || sub_is c (S_ "*").
(** content_types.rs:147-157 [is_equivalent_to]. *)
Definition is_equivalent_to (a b : content_type) : bool :=
  if is_strict_xml a && is_strict_xml b then
    negb (nonempty (attributes a)) || list_eqb attr_eqb (attributes a) (attributes b)
  else if negb (nonempty (attributes a)) then
    str_eqb (main_type a) (main_type b) && str_eqb (sub_type a) (sub_type b)
  else ct_eqb a b.
(** content_types.rs:189-203 [Display]. *)
Definition ct_show (c : content_type) : str :=
  let base := match suffix c with
              | Some s => main_type c ++ [47] ++ sub_type c ++ [43] ++ s
              | None => main_type c ++ [47] ++ sub_type c
              end in
  match attributes c with
  | [] => base
  | l => base ++ [59] ++ join_with [59] (map (fun kv => fst kv ++ [61] ++ snd kv) l)
  end.

(** bodies.rs:19-32 [enum OptionalBody]. *)
Inductive hint := HBinary | HTextual | HDefault.
Inductive body := BMissing | BEmpty | BNull | BPresent (bytes : list N) (ct : option content_type) (h : option hint).
(** bodies.rs:37-39 [is_present]; 42-47 [value]; 103-108 [has_content_type]; 111-117 [content_type]. *)
Definition body_present (b : body) : bool := match b with BPresent _ _ _ => true | _ => false end.
Definition body_value (b : body) : option (list N) := match b with BPresent s _ _ => Some s | _ => None end.
Definition body_content_type (b : body) : option content_type := match b with BPresent _ ct _ => ct | _ => None end.
(** [value().unwrap_or_default()]. *)
Definition body_bytes (b : body) : list N := match body_value b with Some s => s | None => [] end.
