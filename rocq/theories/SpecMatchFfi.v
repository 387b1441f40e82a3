(** What it means that a value follows a rule, for each kind of value the C interface takes (C126). *)
From Coq Require Import Ascii String List Arith NArith ZArith Lia Bool.
From Coq Require Import Floats.SpecFloat.
From Verif Require Import Base PathExp Json Text MatchingRules Matchers SpecMatch SpecValues SpecXml Http FfiRead MatchFfi.
Import ListNotations.
Open Scope N_scope.

(** What the arguments stand for: texts must be UTF-8, a flag is set if it is not 0, JSON must parse. *)
Inductive means (x : externals) : given -> pair -> Prop :=
| m_text : forall eb ab e a, from_utf8 eb = Some e -> from_utf8 ab = Some a -> means x (GText (Some eb) (Some ab)) (PText e a)
| m_u64 : forall e a, means x (GU64 e a) (PU64 e a)
| m_i64 : forall e a, means x (GI64 e a) (PI64 e a)
| m_f64 : forall e a, means x (GF64 e a) (PF64 e a)
| m_bool : forall n m e a, (e = true <-> n <> 0) -> (a = true <-> m <> 0) -> means x (GBool n m) (PBool e a)
| m_bytes : forall e a, means x (GBytes e a) (PBytes e a)
| m_json : forall eb ab et at_ e a, from_utf8 eb = Some et -> from_utf8 ab = Some at_ ->
    json_of_bytes x (utf8 et) = Some e -> json_of_bytes x (utf8 at_) = Some a -> means x (GJson (Some eb) (Some ab)) (PJson e a).

(** A rule a kind of value has no check for is passed over only if it was inherited and is one of the three that are not inherited. *)
Definition passed_over (r : rule) (cascaded : Prop) : Prop :=
  cascaded /\ match r with RValues | REachKey _ | REachValue _ => True | _ => False end.
(** A number, with the text it is written as. *)
Definition number_follows (w : world) (r : rule) (cascaded : Prop) (written : str) (same whole : Prop) (status : http_status -> Prop) : Prop :=
  match r with
  | RRegex pat => regex_match w pat written = Some true
  | RInclude sub => has_part written sub
  | RType | RMinType _ | RMaxType _ | RMinMaxType _ _ | RNumber => True
  | REquality => same
  | RInteger => whole
  | RDecimal => ~ whole
  | RStatusCode st => status st
  | _ => passed_over r cascaded
  end.
Definition follows (w : world) (x : externals) (p : pair) (r : rule) (cascaded : Prop) : Prop :=
  match p with
  | PText e a => match r with
                 | RValues => e = a
                 | RContentType t => content_type_ok w a t = true
                 | RArrayContains _ | REachKey _ | REachValue _ => passed_over r cascaded
                 | _ => text_satisfies w r e a
                 end
  | PU64 e a => number_follows w r cascaded (show_N a) (e = a) True (fun st => in_class st (a mod 2 ^ 16))
  | PI64 e a => number_follows w r cascaded (show_Z a) (e = a) True (fun _ => False)
  | PF64 e a => number_follows w r cascaded (display_float w a) (SFeqb e a = true) False (fun _ => False)
  | PBool e a => match r with
                 | RRegex pat => regex_match w pat (if a then S_ "true" else S_ "false") = Some true
                 | RType | RMinType _ | RMaxType _ | RMinMaxType _ _ | RBoolean => True
                 | REquality => e = a
                 | _ => passed_over r cascaded
                 end
  | PBytes e a => match r with
                  | RRegex pat => exists s, from_utf8 a = Some s /\ regex_match w pat s = Some true
                  | RInclude sub => exists s, from_utf8 a = Some s /\ has_part s sub
                  | RType | RMinType _ | RMaxType _ | RMinMaxType _ _ => True
                  | REquality => e = a
                  | RContentType t => bytes_content_type_ok x a t = true
                  | RNotEmpty => a <> []
                  | _ => passed_over r cascaded
                  end
  | PJson e a => match r with
                 | RType | RMinType _ | RMaxType _ | RMinMaxType _ _ =>
                     type_of e = type_of a /\ (~ cascaded -> forall l l', e = JArr l -> a = JArr l' -> size_allowed r (len l'))
                 | REquality | RValues => json_eqb e a = true
                 | RContentType t => json_content_type_ok w a t = true
                 | RArrayContains _ | RStatusCode _ | REachKey _ | REachValue _ => True
                 | _ => json_satisfies w r a
                 end
  end.
(** The checks that fail to say why: of bytes, where a value to be shown has less than ten of them. *)
Definition speechless (p : pair) (r : rule) : Prop :=
  match p with
  | PBytes e a => match r with
                  | REquality => (length e < 10)%nat \/ (length a < 10)%nat
                  | RRegex _ | RInclude _ | RContentType _ | RNotEmpty => False
                  | _ => (length a < 10)%nat
                  end
  | _ => False
  end.
(** JSON that does not parse. *)
Inductive unparsed (x : externals) (bad_json : list N -> str) : given -> str -> Prop :=
| up_expected : forall eb ab e a, from_utf8 eb = Some e -> from_utf8 ab = Some a -> json_of_bytes x (utf8 e) = None ->
    unparsed x bad_json (GJson (Some eb) (Some ab)) (S_ "Failed to parse expected JSON: " ++ bad_json (utf8 e))
| up_actual : forall eb ab e a j, from_utf8 eb = Some e -> from_utf8 ab = Some a -> json_of_bytes x (utf8 e) = Some j -> json_of_bytes x (utf8 a) = None ->
    unparsed x bad_json (GJson (Some eb) (Some ab)) (S_ "Failed to parse actual JSON: " ++ bad_json (utf8 a)).
(** A text argument that is NULL or not UTF-8. *)
Definition no_text (p : option (list N)) : Prop := forall b s, p = Some b -> from_utf8 b <> Some s.
Definition illegible (g : given) : Prop :=
  match g with GText e a | GJson e a => no_text e \/ no_text a | _ => False end.
