(** When data has a content type, for C127. *)
From Coq Require Import Ascii String List Arith NArith ZArith Lia Bool.
From Verif Require Import Base PathExp Json Text Base64 ContentType MatchingRules Matchers Http.
Import ListNotations.
Open Scope N_scope.

Section Kind.
Variable w : world.
Variable x : externals.
Variable infer : list N -> option str.
Variable magic : list N -> str.
(** What the bytes look like: by a known signature, else by the other library. *)
Inductive looks : list N -> str -> Prop :=
| lk_signature : forall d t, infer d = Some t -> t <> [] -> looks d t
| lk_magic : forall d, infer d = None \/ infer d = Some [] -> looks d (magic d).
(** The type a text stands for; a text that is none stands for any type. *)
Inductive names_type : str -> content_type -> Prop :=
| nt_type : forall s c, parse_mime x s = Some c -> names_type s c
| nt_any : forall s, parse_mime x s = None -> names_type s (mkCT (S_ "*") (S_ "*") [] None).
Inductive has_type : list N -> str -> Prop :=
| ht_looks : forall d t, looks d t -> has_type d t
| ht_text : forall d t c, looks d (S_ "text/plain") -> detect_bytes x d = Some c -> names_type t c -> has_type d t
| ht_nothing : forall d, infer d = None \/ infer d = Some [] -> has_type d [].
(** The data a JSON value holds. *)
Inductive holds_data : json -> list N -> Prop :=
| hd_base64 : forall s b, b64_decode s = Some b -> holds_data (JStr s) b
| hd_text : forall s, b64_decode s = None -> holds_data (JStr s) (utf8 s)
| hd_json : forall j, (forall s, j <> JStr s) -> holds_data j (utf8 (json_show w j)).
End Kind.
