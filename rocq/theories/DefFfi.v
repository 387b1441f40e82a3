(** Model of the calls of the C interface for matching definitions: rust/pact_ffi/src/models/expressions.rs:1-560.

    A pointer from C is a number, [None] for NULL: a definition and an iterator are numbers from what was returned. A call with a pointer to
    something that was deleted has no meaning (the step is [None]). What a call gives is an [answer] of FfiRead.v: NULL, a value, or the value
    of the second block of [ffi_fn!] with a last error. The text of an error is not modelled, and the counter of an iterator does not overflow. *)
From Coq Require Import Ascii String List Arith NArith ZArith Lia Bool.
From Verif Require Import Base PathExp Json Text MatchingRules Generators RuleExpr FfiRead.
From Verif Require TimeFormat.
Import ListNotations.
Open Scope N_scope.

(** expressions.rs:229-237. *)
Inductive item := IRule (id : N) (value : option (list N)) (r : xrule) | IReference (name : list N).
(** 329-357 [rule_id]. *)
Definition rule_id (r : xrule) : N :=
  match r with
  | XRule REquality => 1 | XRule (RRegex _) => 2 | XRule RType => 3 | XRule (RMinType _) => 4 | XRule (RMaxType _) => 5
  | XRule (RMinMaxType _ _) => 6 | XRule (RTimestamp _) => 7 | XRule (RTime _) => 8 | XRule (RDate _) => 9 | XRule (RInclude _) => 10
  | XRule RNumber => 11 | XRule RInteger => 12 | XRule RDecimal => 13 | XRule RNull => 14 | XRule (RContentType _) => 15
  | XRule (RArrayContains _) | XContains _ => 16
  | XRule RValues => 17 | XRule RBoolean => 18 | XRule (RStatusCode _) => 19 | XRule RNotEmpty => 20 | XRule RSemver => 21
  | XRule (REachKey _) | XEachKey _ => 22
  | XRule (REachValue _) | XEachValue _ => 23
  end.
(** 272-299: the text that goes with a rule. *)
Definition rule_text (r : xrule) : option str :=
  match r with
  | XRule (RRegex s) | XRule (RTimestamp s) | XRule (RTime s) | XRule (RDate s) | XRule (RInclude s) | XRule (RContentType s) => Some s
  | XRule (RMinType n) | XRule (RMaxType n) => Some (show_N n)
  | XRule (RMinMaxType a b) => Some (show_N a ++ [58] ++ show_N b)
  | _ => None
  end.
(** 263-317 [MatchingRuleIterator::new]: [None]: the [unwrap] of a [CString] fails, which the call turns into an error. *)
Definition c_bytes (s : str) : option (list N) := match to_c s with Gave b => Some b | _ => None end.
Definition item_of (r : xrule + str) : option item :=
  match r with
  | inl rule => match rule_text rule with
                | None => Some (IRule (rule_id rule) None rule)
                | Some t => option_map (fun b => IRule (rule_id rule) (Some b) rule) (c_bytes t)
                end
  | inr name => option_map IReference (c_bytes name)
  end.
Fixpoint items_of (l : list (xrule + str)) : option (list item) :=
  match l with
  | [] => Some []
  | r :: l' => match item_of r, items_of l' with Some i, Some is => Some (i :: is) | _, _ => None end
  end.

Section Calls.
Variable junk : str -> nat.
Variable w : world.
Variable message : str -> str.              (* the text of the error for an expression *)
Variable abbreviations zones : str -> bool.

(** 55-86 [pactffi_parse_matcher_definition]. *)
Definition definition_of (e : str) : str + xdef :=
  if is_matcher_def junk e then match parse_matcher_def junk w e with Some d => inr d | None => inl (message e) end
  else match e with
       | [] => inl (S_ "Expected a matching rule definition, but got an empty string")
       | _ => inr (mkX e VString [] None e)
       end.
(** What exists: definitions and iterators, in the order they were made; [None] when deleted. *)
Record heap := mkHeap { defs : list (option (str + xdef)); iters : list (option (list item * nat)) }.
Inductive call :=
| Parse (e : option (list N)) | DefError (d : option nat) | DefValue (d : option nat) | DefType (d : option nat) | DefGenerator (d : option nat)
| DefIter (d : option nat) | IterNext (i : option nat) | DefDelete (d : nat) | IterDelete (i : nat)
| ValidateDatetime (value format : option (list N)).
Inductive reply :=
| ADef (a : answer nat) | AText (a : answer (list N)) | AType (a : answer value_type) | AGenerator (a : answer generator)
| AIter (a : answer nat) | AItem (a : answer item) | ACode (z : Z) | ANothing.
Definition set_nth {A} (l : list A) (n : nat) (x : A) : list A := firstn n l ++ match skipn n l with [] => [] | _ :: r => x :: r end.
(** [as_ref!]: [inl]: NULL; [None]: not a pointer to something that exists. *)
Definition lookup {A} (l : list (option A)) (p : option nat) : option (option A) :=
  match p with
  | None => Some None
  | Some n => match nth_error l n with Some (Some a) => Some (Some a) | _ => None end
  end.
(** [safe_str!]. *)
Definition text_of (c : option (list N)) : option str := match c with Some b => from_utf8 b | None => None end.
Definition step (h : heap) (c : call) : option (heap * reply) :=
  let on_def d (f : str + xdef -> reply) (failed : reply) := option_map (fun x => (h, match x with Some d => f d | None => failed end)) (lookup (defs h) d) in
  match c with
  | Parse e => Some (match text_of e with
                     | None => (h, ADef Failed)
                     | Some t => (mkHeap (defs h ++ [Some (definition_of t)]) (iters h), ADef (Gave (length (defs h))))
                     end)
  | DefError d => on_def d (fun x => AText match x with inl e => to_c e | inr _ => Null end) (AText Failed)         (* 93-103 *)
  | DefValue d => on_def d (fun x => AText match x with inl _ => Null | inr v => to_c (x_value v) end) (AText Failed)   (* 113-122 *)
  | DefGenerator d => on_def d (fun x => AGenerator match x with inl _ => Null | inr v => match x_gen v with Some g => Gave g | None => Null end end) (AGenerator Failed)
  | DefType d => on_def d (fun x => AType (Gave match x with inl _ => VUnknown | inr v => x_type v end)) (AType Failed)
  | DefIter d =>
      match lookup (defs h) d with
      | None => None
      | Some None => Some (h, AIter Failed)
      | Some (Some (inl _)) => Some (h, AIter Null)
      | Some (Some (inr v)) => Some (match items_of (x_rules v) with
                                     | None => (h, AIter Failed)
                                     | Some is => (mkHeap (defs h) (iters h ++ [Some (is, O)]), AIter (Gave (length (iters h))))
                                     end)
      end
  | IterNext i =>
      match lookup (iters h) i, i with
      | Some (Some (is, n)), Some k => Some (mkHeap (defs h) (set_nth (iters h) k (Some (is, Datatypes.S n))), AItem match nth_error is n with Some x => Gave x | None => Null end)
      | Some None, _ => Some (h, AItem Failed)
      | _, _ => None
      end
  | DefDelete d => match nth_error (defs h) d with Some (Some _) => Some (mkHeap (set_nth (defs h) d None) (iters h), ANothing) | _ => None end
  | IterDelete i => match nth_error (iters h) i with Some (Some _) => Some (mkHeap (defs h) (set_nth (iters h) i None), ANothing) | _ => None end
  | ValidateDatetime value format =>
      Some (h, ACode match text_of value, text_of format with
                     | Some v, Some f =>
                         match v, f with
                         | [], _ => 1 | _, [] => 1
                         | _, _ => match TimeFormat.validate_datetime abbreviations zones v f with Ok _ => 0 | Err _ => 1 | Panic => 2 end
                         end%Z
                     | _, _ => 2%Z
                     end)
  end.
Definition trace := list (call * reply).
Inductive runs : heap -> trace -> heap -> Prop :=
| runs_none : forall h, runs h [] h
| runs_one : forall h c h1 r tr h2, step h c = Some (h1, r) -> runs h1 tr h2 -> runs h ((c, r) :: tr) h2.
Definition no_heap : heap := mkHeap [] [].

(** 416-423, 462-469, 480-487, 510-517: what an item shows. *)
Definition item_id (i : item) : N := match i with IRule n _ _ => n | IReference _ => 0 end.
Definition item_value (i : item) : answer (list N) := match i with IRule _ (Some v) _ => Gave v | _ => Null end.
Definition item_rule (i : item) : answer xrule := match i with IRule _ _ r => Gave r | _ => Null end.
Definition item_reference (i : item) : answer (list N) := match i with IReference n => Gave n | _ => Null end.
End Calls.
