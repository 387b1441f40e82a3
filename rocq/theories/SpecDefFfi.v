(** What matching definitions show through the C interface, for C125. *)
From Coq Require Import Ascii String List Arith NArith ZArith Lia Bool.
From Verif Require Import Base PathExp Json Text MatchingRules Generators RuleExpr FfiRead DefFfi.
Import ListNotations.
Open Scope N_scope.

(** The documented table of rules, their identifiers and values. *)
Inductive documented : xrule -> N -> option str -> Prop :=
| d_equality : documented (XRule REquality) 1 None
| d_regex : forall s, documented (XRule (RRegex s)) 2 (Some s)
| d_type : documented (XRule RType) 3 None
| d_min : forall n, documented (XRule (RMinType n)) 4 (Some (show_N n))
| d_max : forall n, documented (XRule (RMaxType n)) 5 (Some (show_N n))
| d_min_max : forall a b, documented (XRule (RMinMaxType a b)) 6 (Some (show_N a ++ S_ ":" ++ show_N b))
| d_timestamp : forall s, documented (XRule (RTimestamp s)) 7 (Some s)
| d_time : forall s, documented (XRule (RTime s)) 8 (Some s)
| d_date : forall s, documented (XRule (RDate s)) 9 (Some s)
| d_include : forall s, documented (XRule (RInclude s)) 10 (Some s)
| d_number : documented (XRule RNumber) 11 None
| d_integer : documented (XRule RInteger) 12 None
| d_decimal : documented (XRule RDecimal) 13 None
| d_null : documented (XRule RNull) 14 None
| d_content_type : forall s, documented (XRule (RContentType s)) 15 (Some s)
| d_array_contains : forall l, documented (XRule (RArrayContains l)) 16 None
| d_contains : forall l, documented (XContains l) 16 None
| d_values : documented (XRule RValues) 17 None
| d_boolean : documented (XRule RBoolean) 18 None
| d_status : forall s, documented (XRule (RStatusCode s)) 19 None
| d_not_empty : documented (XRule RNotEmpty) 20 None
| d_semver : documented (XRule RSemver) 21 None
| d_key : forall d, documented (XRule (REachKey d)) 22 None
| d_each_key : forall d, documented (XEachKey d) 22 None
| d_value : forall d, documented (XRule (REachValue d)) 23 None
| d_each_value : forall d, documented (XEachValue d) 23 None.
(** A text that C can be given has no character zero. *)
Definition for_c (s : str) : Prop := ~ In 0 s.
(** The item for a rule, or for a reference to a name. *)
Inductive shown : xrule + str -> item -> Prop :=
| sh_plain : forall r n, documented r n None -> shown (inl r) (IRule n None r)
| sh_value : forall r n t, documented r n (Some t) -> for_c t -> shown (inl r) (IRule n (Some (utf8 t)) r)
| sh_reference : forall name, for_c name -> shown (inr name) (IReference (utf8 name)).
(** A rule or reference whose text has a zero. *)
Definition hides (r : xrule + str) : Prop :=
  match r with inl rule => exists n t, documented rule n (Some t) /\ ~ for_c t | inr name => ~ for_c name end.
(** What the calls for the next item of the iterator [i] gave. *)
Definition nexts (i : nat) (tr : trace) : list reply :=
  flat_map (fun x => match fst x with IterNext (Some j) => if Nat.eqb i j then [snd x] else [] | _ => [] end) tr.
(** The items one after the other, then NULL for ever. *)
Definition in_turn (l : list item) (rs : list reply) : Prop :=
  forall k r, nth_error rs k = Some r -> (exists x, nth_error l k = Some x /\ r = AItem (Gave x)) \/ ((length l <= k)%nat /\ r = AItem Null).
Definition deletes (d : nat) (tr : trace) : Prop := exists r, In (DefDelete d, r) tr.

Section Spec.
Variable junk : str -> nat.
Variable w : world.
(** What an expression stands for: itself when it is no definition, and otherwise what the parser makes of it (C74). *)
Inductive stands_for (e : str) : xdef -> Prop :=
| st_text : e <> [] -> is_matcher_def junk e = false -> stands_for e (mkX e VString [] None e)
| st_def : forall d, is_matcher_def junk e = true -> parse_matcher_def junk w e = Some d -> stands_for e d.
Definition wrong (e : str) : Prop := e = [] \/ (is_matcher_def junk e = true /\ parse_matcher_def junk w e = None).
End Spec.
