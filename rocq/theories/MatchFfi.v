(** Model of the calls of the C interface that check a value against a rule: rust/pact_ffi/src/matching.rs:1-235, with
    [Matches<i64> for i64] and [Matches<f64> for f64] of rust/pact_matching/src/matchers.rs.

    A pointer from C is [None] for NULL. The bytes of a binary value are what pointer and length describe (a NULL pointer with a length is
    excluded). The texts of the errors are arbitrary functions; that a panic is caught by [ffi_fn!] is C60. A rule from a matching definition
    (with rules or variants inside) is a [rule] here. *)
From Coq Require Import Ascii String List Arith NArith ZArith Lia Bool.
From Coq Require Import Floats.SpecFloat.
From Verif Require Import Base PathExp Json Text MatchingRules Matchers Http FfiRead.
Import ListNotations.
Open Scope N_scope.

(** What the calls are given: a pair of an expected and an actual value. *)
Inductive given :=
| GText (e a : option (list N)) | GU64 (e a : N) | GI64 (e a : Z) | GF64 (e a : spec_float)
| GBool (e a : N) | GBytes (e a : list N) | GJson (e a : option (list N)).
(** What is compared. *)
Inductive pair :=
| PText (e a : str) | PU64 (e a : N) | PI64 (e a : Z) | PF64 (e a : spec_float) | PBool (e a : bool) | PBytes (e a : list N) | PJson (e a : json).
(** util/string.rs:52-61 [safe_str!]. *)
Definition safe_str (p : option (list N)) : option str := match p with Some b => from_utf8 b | None => None end.

Section Calls.
Variable w : world.
Variable x : externals.
Variable why : pair -> rule -> bool -> str.        (* the text of a mismatch *)
Variable bad_json : list N -> str.                 (* the text of a JSON error *)

(** matchers.rs:603-647. *)
Definition i64_matches (e a : Z) (r : rule) (cascaded : bool) : bool :=
  match r with
  | RRegex pat => regex_ok w pat (show_Z a)
  | RType | RMinType _ | RMaxType _ | RMinMaxType _ _ => true
  | REquality => (e =? a)%Z
  | RInclude sub => contains sub (show_Z a)
  | RNumber | RInteger => true
  | RDecimal => false
  | _ => unable cascaded r
  end.
(** matchers.rs:441-487. *)
Definition f64_matches (e a : spec_float) (r : rule) (cascaded : bool) : bool :=
  match r with
  | RRegex pat => regex_ok w pat (display_float w a)
  | RType | RMinType _ | RMaxType _ | RMinMaxType _ _ => true
  | REquality => SFeqb e a
  | RInclude sub => contains sub (display_float w a)
  | RNumber | RDecimal => true
  | RInteger => false
  | _ => unable cascaded r
  end.
(** The [matches_with] of each call; the one for bytes may panic (Http.v). *)
Definition pair_matches (p : pair) (r : rule) (cascaded : bool) : outcome bool unit :=
  match p with
  | PText e a => Ok (str_matches w e a r cascaded)
  | PU64 e a => Ok (u64_matches w e a r cascaded)
  | PI64 e a => Ok (i64_matches e a r cascaded)
  | PF64 e a => Ok (f64_matches e a r cascaded)
  | PBool e a => Ok (bool_matches w e a r cascaded)
  | PBytes e a => bytes_matches w x e a r cascaded
  | PJson e a => Ok (json_matches w e a r cascaded)
  end.
(** The arguments; [inl]: the call gives this text instead ([None]: the call fails). *)
Definition taken (g : given) : option str + pair :=
  match g with
  | GText e a => match safe_str e, safe_str a with Some e', Some a' => inr (PText e' a') | _, _ => inl None end
  | GU64 e a => inr (PU64 e a)
  | GI64 e a => inr (PI64 e a)
  | GF64 e a => inr (PF64 e a)
  | GBool e a => inr (PBool (0 <? e) (0 <? a))
  | GBytes e a => inr (PBytes e a)
  | GJson e a =>
      match safe_str e, safe_str a with
      | Some e', Some a' =>
          match json_of_bytes x (utf8 e') with
          | None => inl (Some (S_ "Failed to parse expected JSON: " ++ bad_json (utf8 e')))
          | Some je => match json_of_bytes x (utf8 a') with
                       | None => inl (Some (S_ "Failed to parse actual JSON: " ++ bad_json (utf8 a')))
                       | Some ja => inr (PJson je ja)
                       end
          end
      | _, _ => inl None
      end
  end.
(** The second block of [ffi_fn!]: the text a call that failed gives. *)
Definition panicked : list N := utf8 (S_ "INTERNAL ERROR: function panicked").
Inductive result := RNullPtr | RMessage (b : list N) | RFailed (b : list N).  (* [RFailed]: and a last error is set *)
Definition told (s : str) : result := match to_c s with Gave b => RMessage b | _ => RFailed panicked end.
Definition matches_value (r : option rule) (g : given) (cascaded : N) : result :=
  match r with
  | None => RFailed panicked
  | Some r =>
      match taken g with
      | inl None => RFailed panicked
      | inl (Some s) => told s
      | inr p => match pair_matches p r (0 <? cascaded) with
                 | Ok true => RNullPtr
                 | Ok false => told (why p r (0 <? cascaded))
                 | _ => RFailed panicked
                 end
      end
  end.
End Calls.
