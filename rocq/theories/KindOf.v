(** Model of the content type of data: rust/pact_matching/src/binary_utils.rs:34-117 ([match_content_type], [convert_data]), as used by the
    content type rule (matchers.rs:292, 755, json.rs:241).

    The two libraries that look at the bytes ([infer], [tree_magic_mini]) are arbitrary functions; so are the detection from text
    ([detect_bytes]) and the parser of content types ([parse_mime]) of Http.v. The texts of errors and the log are not modelled. *)
From Coq Require Import Ascii String List Arith NArith ZArith Lia Bool.
From Verif Require Import Base PathExp Json Text Base64 ContentType MatchingRules Matchers Http.
Import ListNotations.
Open Scope N_scope.

Section Kind.
Variable w : world.
Variable x : externals.
Variable infer : list N -> option str.       (* infer::get(data).mime_type() *)
Variable magic : list N -> str.              (* tree_magic_mini::from_u8 *)

(** content_types.rs:202-206 [From<&String>]. *)
Definition type_from (s : str) : content_type := match parse_mime x s with Some c => c | None => ct_default end.
(** binary_utils.rs:36-110. *)
Definition match_content_type (data : list N) (expected : str) : bool :=
  let inferred := match infer data with Some t => t | None => [] end in
  if str_eqb inferred expected then true else
  let none := str_eqb inferred [] in
  let found := if none then magic data else [] in
  if none && str_eqb found expected then true else
  let detected := if none then found else inferred in
  if str_eqb detected (S_ "text/plain") then
    match detect_bytes x data with
    | Some c => ct_eqb c (type_from expected)
    | None => false
    end
  else false.
(** 112-117. *)
Definition convert_data (j : json) : list N :=
  match j with
  | JStr s => match b64_decode s with Some b => b | None => utf8 s end
  | _ => utf8 (json_show w j)
  end.
(** Checks of the content type are done this way wherever the model leaves them open. *)
Definition checks_types : Prop :=
  (forall a t, content_type_ok w a t = match_content_type (utf8 a) t) /\
  (forall j t, json_content_type_ok w j t = match_content_type (convert_data j) t) /\
  (forall b t, bytes_content_type_ok x b t = match_content_type b t).
End Kind.
