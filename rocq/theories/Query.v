(** Model of query parameter matching: rust/pact_matching/src/query.rs and
    [match_query] of lib.rs. Messages are not modelled. *)
From Coq Require Import Ascii String List Arith NArith ZArith Lia Bool.
From Verif Require Import Base PathExp Json Text MatchingRules Matchers JsonCompare Headers.
Import ListNotations.
Open Scope N_scope.

(** [HashMap<String, Vec<Option<String>>>], in the iteration order of the map. *)
Definition query_map := list (str * list (option str)).
(** [v.clone().unwrap_or_default()] on every value (query.rs:22, 25, 46). *)
Definition plain_values (l : list (option str)) : list str :=
  map (fun v => match v with Some s => s | None => [] end) l.

Section Query.
Variable w : world.
(** [path.first_field().unwrap_or_default()]. *)
Definition query_mm (p : docpath) (k : mismatch_kind) : mismatch :=
  mkMM (match first_field p with Some f => f | None => [] end) k.

(** query.rs:92-125 [compare_query_parameter_value]. *)
Definition compare_query_parameter_value (p : docpath) (e a : str) (index : N) (c : context) : list mismatch :=
  let q := join p (show_N index) in
  map (query_mm p)
    (if ctx_matcher_is_defined c q then match_values (str_matches w e a) (ctx_select_best c q)
     else if str_matches w e a REquality false then [] else [KNotEqual]).

(** query.rs:127-160 [compare_query_parameter_values]; the expected values are padded
    with empty strings ([pad_using]). *)
Fixpoint query_elements (p : docpath) (c : context) (i : N) (e a : list str) : list mismatch :=
  match e with
  | [] => []
  | x :: e' =>
      match a with
      | y :: a' => compare_query_parameter_value p x y i c ++ query_elements p c (i + 1) e' a'
      | [] => (if ctx_matcher_is_defined c p then [] else [query_mm p (KMissing i)]) ++ query_elements p c (i + 1) e' []
      end
  end.
Definition compare_query_parameter_values (p : docpath) (e a : list str) (c : context) : list mismatch :=
  query_elements p c 0 (pad_values e (length a)) a.

(** query.rs:54-90 [match_query_values]. *)
Definition match_query_values (key : str) (e a : list str) (c : context) : list mismatch :=
  let p := join path_root key in
  if ctx_matcher_is_defined c p then
    compare_lists_with_matchingrules str str_eqb clone_with
      (fun p e a c => compare_query_parameter_value p e a 0 c)
      p (ctx_select_best c p) e a (clone_with c (matchers c))
  else if negb (nonempty e) && nonempty a then [mkMM key KNotEmpty]
  else
    compare_query_parameter_values p e a c ++
    (if Nat.eqb (length e) (length a) then [] else [mkMM key (KListLength (len e) (len a))]).

(** query.rs:15-52 [match_query_maps]: the entries of the result map. *)
Definition match_query_entry (actual : query_map) (c : context) (key : str) (value : list (option str)) : list mismatch :=
  match obj_get key actual with
  | Some av => match_query_values key (plain_values value) (plain_values av) c
  | None => [mkMM key KAbsent]
  end.
Definition unexpected_entries (expected actual : query_map) : list (str * list mismatch) :=
  flat_map (fun kv => match obj_get (fst kv) expected with
    | Some _ => []
    | None => [(fst kv, [mkMM (fst kv) KUnexpected])]
    end) actual.
Definition match_query_maps (expected actual : query_map) (c : context) : list (str * list mismatch) :=
  map (fun kv => (fst kv, match_query_entry actual c (fst kv) (snd kv))) expected ++
  unexpected_entries expected actual.

(** lib.rs:1634-1661 [match_query]. *)
Definition match_query (expected actual : option query_map) (c : context) : list (str * list mismatch) :=
  match actual, expected with
  | Some a, Some e => match_query_maps e a c
  | Some a, None => map (fun kv => (fst kv, [mkMM (fst kv) KUnexpected])) a
  | None, Some e => map (fun kv => (fst kv, [mkMM (fst kv) KAbsent])) e
  | None, None => []
  end.
End Query.
