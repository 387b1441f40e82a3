(** Model of body comparison: the matching context of
    rust/pact_matching/src/lib.rs, the map and list comparison of
    matchingrules.rs and the JSON comparison of json.rs.

    A [Result<(), Vec<CommonMismatch>>] is the list of mismatches, [] being
    [Ok(())]: the code never returns an empty error list, and [merge_result]
    (lib.rs:1186-1198) is then concatenation. *)
From Coq Require Import Ascii String List Arith NArith ZArith Lia Bool.
From Verif Require Import Base PathExp Json MatchingRules Matchers.
Import ListNotations.
Open Scope N_scope.

(** lib.rs:469-480 [struct CoreMatchingContext] without the plugin data;
    [allow] is [config == AllowUnexpectedKeys] (the other value is NoUnexpectedKeys). *)
Record context := mkCtx { allow : bool; matchers : category }.
(** lib.rs:661-668 [clone_with]. *)
Definition clone_with (c : context) (m : category) : context := mkCtx (allow c) m.

(** lib.rs:543-547 [matcher_is_defined]; 549-553 [select_best_matcher]. *)
Definition ctx_matcher_is_defined (c : context) (p : docpath) : bool := matcher_is_defined (matchers c) (to_vec p).
Definition ctx_select_best (c : context) (p : docpath) : rulelist := select_best_matcher (matchers c) (to_vec p).

Definition opt_str_eqb (a b : option str) : bool :=
  match a, b with Some x, Some y => str_eqb x y | None, None => true | _, _ => false end.
(** lib.rs:505-519 [matchers_for_exact_path]. *)
Definition matchers_for_exact_path (c : context) (p : docpath) : category :=
  match cat_name (matchers c) with
  | CHeader | CQuery =>
      cat_filter (fun v => Nat.eqb (length (path_tokens p)) 1 && opt_str_eqb (first_field p) (first_field v)) (matchers c)
  | CBody => cat_filter (fun v => matches_path_exactly v (to_vec p)) (matchers c)
  | _ => cat_filter (fun _ => false) (matchers c)
  end.

(** mod.rs:255-281 the rules whose [name()] is values, each-value or each-key. *)
Definition entry_rule (r : rule) : bool :=
  match r with RValues | REachValue _ | REachKey _ => true | _ => false end.
(** lib.rs:565-572 [direct_matcher_defined] with the names values, each-value,
    each-key, and with no names. *)
Definition direct_entry_matcher (c : context) (p : docpath) : bool :=
  existsb entry_rule (rl_rules (as_rule_list (matchers_for_exact_path c p))).
Definition direct_any_matcher (c : context) (p : docpath) : bool :=
  negb (cat_is_empty (matchers_for_exact_path c p)).

Definition mm (p : docpath) (k : mismatch_kind) : mismatch := mkMM (path_expr p) k.
Definition str_in (k : str) (l : list str) : bool := existsb (str_eqb k) l.
Definition missing_keys (expected actual : list str) : list str :=
  filter (fun k => negb (str_in k actual)) expected.

Section Compare.
Variable w : world.

(** lib.rs:574-650 [match_keys]; the key lists are in ascending order (BTreeSet). *)
Definition each_key_mismatches (p : docpath) (actual : list str) (r : rule) : list mismatch :=
  match r with
  | REachKey d =>
      flat_map (fun sub => match sub with
        | inl r => flat_map (fun key => if str_matches w [] key r false then []
                                        else [mm (join p key) (KKeyRule key r)]) actual
        | inr name => [mm p (KUnresolved name)]
        end) (def_rules d)
  | _ => []
  end.
Definition match_keys (c : context) (p : docpath) (expected actual : list str) : list mismatch :=
  (if direct_entry_matcher c p then []
   else if allow c then
     match missing_keys expected actual with
     | [] => []
     | ks => [mm p (KMissingKeys ks)]
     end
   else if list_eqb str_eqb expected actual then [] else [mm p KKeysDiffer])
  ++
  (if direct_any_matcher c p then
     flat_map (each_key_mismatches p actual) (rl_rules (ctx_select_best c p))
   else []).

(** The rules of a definition and the mismatches of its unresolved references
    (matchingrules.rs:290-305, 409-424), and the category built from them. *)
Definition resolved_rules (d : definition) : list rule :=
  flat_map (fun x => match x with inl r => [r] | inr _ => [] end) (def_rules d).
Definition unresolved_mismatches (p : docpath) (d : definition) : list mismatch :=
  flat_map (fun x => match x with inl _ => [] | inr name => [mm p (KUnresolved name)] end) (def_rules d).
Definition each_value_rules (p : docpath) (d : definition) : category :=
  mkCat CBody [(join p (S_ "*"), mkRules (resolved_rules d) And false)].

Section Generic.
Variable T : Type.
Variable eqb : T -> T -> bool.
(** [MatchingContext::clone_with] of the context in use. *)
Variable clone : context -> category -> context.
Variable callback : docpath -> T -> T -> context -> list mismatch.

(** The loop over the expected entries (matchingrules.rs:336-341, json.rs:442-447). *)
Definition compare_entries (p : docpath) (e a : list (str * T)) (c : context) : list mismatch :=
  flat_map (fun kv => match obj_get (fst kv) a with
    | Some v => callback (join p (fst kv)) (snd kv) v c
    | None => []
    end) e.

(** matchingrules.rs:275-345 [compare_maps_with_matchingrule]. *)
Definition compare_maps_with_matchingrule (r : rule) (cascaded : bool) (p : docpath)
    (e a : list (str * T)) (c : context) : list mismatch :=
  if negb cascaded && is_values_matcher r then
    let c' := match r with REachValue d => clone c (each_value_rules p d) | _ => c end in
    (match r with REachValue d => unresolved_mismatches p d | _ => [] end) ++
    flat_map (fun kv => match obj_get (fst kv) e with
      | Some v => callback (join p (fst kv)) v (snd kv) c'
      | None => match e with
                | (_, first) :: _ => callback (join p (fst kv)) first (snd kv) c'
                | [] => []
                end
      end) a
  else
    (if map_matches eqb e a r cascaded then [] else [mm p (KRule r)]) ++
    match_keys c p (keys e) (keys a) ++
    compare_entries p e a c.

(** matchingrules.rs:507-545 [match_list_contents]: [resize] pads the expected
    list with its first element. *)
Definition pad_expected (e : list T) (n : nat) : list T :=
  match e with
  | [] => []
  | first :: _ => e ++ repeat first (n - length e)
  end.
Fixpoint match_elements (p : docpath) (c : context) (i : N) (e a : list T) : list mismatch :=
  match e with
  | [] => []
  | x :: e' =>
      let q := join p (show_N i) in
      match a with
      | y :: a' => callback q x y c ++ match_elements p c (i + 1) e' a'
      | [] => (if ctx_matcher_is_defined c q then [] else [mm p (KMissing i)]) ++ match_elements p c (i + 1) e' []
      end
  end.
Definition match_list_contents (p : docpath) (e a : list T) (c : context) : list mismatch :=
  match_elements p c 0 (pad_expected e (length a)) a.

(** matchingrules.rs:370-402 one array-contains variant. *)
Definition match_variant (p : docpath) (e a : list T) (c : context) (v : N * category) : list mismatch :=
  match nth_error e (N.to_nat (fst v)) with
  | Some x => if existsb (fun y => match callback path_root x y (clone c (snd v)) with [] => true | _ => false end) a
              then [] else [mm p (KVariantNotFound (fst v))]
  | None => [mm p (KVariantMissing (fst v))]
  end.
(** matchingrules.rs:362-368: without variants every expected element is one, compared by equality. *)
Definition effective_variants (e : list T) (vs : list (N * category)) : list (N * category) :=
  match vs with
  | [] => map (fun i => (N.of_nat i, cat_equality CBody)) (seq 0 (length e))
  | _ => vs
  end.

(** matchingrules.rs:347-460 [compare_lists_with_matchingrule]. *)
Definition compare_lists_with_matchingrule (r : rule) (p : docpath) (e a : list T) (c : context)
    (cascaded : bool) : list mismatch :=
  match e with
  | [] => []
  | _ =>
      match r with
      | RArrayContains vs => flat_map (match_variant p e a c) (effective_variants e vs)
      | REachValue d =>
          if cascaded then []
          else unresolved_mismatches p d ++ match_list_contents p e a (clone c (each_value_rules p d))
      | _ => (if list_matches eqb e a r cascaded then [] else [mm p (KRule r)]) ++ match_list_contents p e a c
      end
  end.

(** matchingrules.rs:462-505 [compare_lists_with_matchingrules]. *)
Definition compare_lists_with_matchingrules (p : docpath) (rl : rulelist) (e a : list T) (c : context) : list mismatch :=
  if rl_is_empty rl then [mm p KNoMatcher]
  else
    let results := map (fun r => compare_lists_with_matchingrule r p e a c (rl_cascaded rl)) (rl_rules rl) in
    match rl_logic rl with
    | And => concat results
    | Or => if forallb nonempty results then concat results else []
    end.
End Generic.

(** * JSON *)
Section Step.
Variable callback : docpath -> json -> json -> context -> list mismatch.

(** json.rs:409-452 [compare_maps]. *)
Definition compare_maps (p : docpath) (e a : list (str * json)) (c : context) : list mismatch :=
  if negb (nonempty e) && negb (allow c) && nonempty a then [mm p KEmptyMap]
  else if ctx_matcher_is_defined c p then
    let rl := ctx_select_best c p in
    flat_map (fun r => compare_maps_with_matchingrule json json_eqb clone_with callback r (rl_cascaded rl) p e a c) (rl_rules rl)
  else
    match_keys c p (keys e) (keys a) ++ compare_entries json callback p e a c.

(** json.rs:490-513 [compare_list_content]. *)
Definition compare_list_content (p : docpath) (e a : list json) (c : context) : list mismatch :=
  match_elements json callback p c 0 e a.

(** json.rs:454-488 [compare_lists]. *)
Definition compare_lists (p : docpath) (e a : list json) (c : context) : list mismatch :=
  if ctx_matcher_is_defined c p then
    compare_lists_with_matchingrules json json_eqb clone_with callback p (ctx_select_best c p) e a c
  else if negb (nonempty e) && nonempty a then [mm p KEmptyList]
  else compare_list_content p e a c ++
       (if Nat.eqb (length e) (length a) then [] else [mm p (KListLength (len e) (len a))]).

(** json.rs:515-540 [compare_values]. *)
Definition compare_values (p : docpath) (e a : json) (c : context) : list mismatch :=
  if ctx_matcher_is_defined c p then
    map (mm p) (match_values (json_matches w e a) (ctx_select_best c p))
  else if json_matches w e a REquality false then [] else [mm p KNotEqual].

(** json.rs:377-407 [compare_json], its recursive calls going to [callback]. *)
Definition compare_step (p : docpath) (e a : json) (c : context) : list mismatch :=
  match e, a with
  | JObj emap, JObj amap => compare_maps p emap amap c
  | JObj _, _ => [mm p KType]
  | JArr elist, JArr alist => compare_lists p elist alist c
  | JArr _, _ => [mm p KType]
  | _, _ => compare_values p e a c
  end.
End Step.

(** [compare_json]; every recursive call is on a part of the expected value, so
    its depth bounds the recursion ([compare_unfold] in CompareProofs.v). *)
Fixpoint compare_fuel (fuel : nat) (p : docpath) (e a : json) (c : context) : list mismatch :=
  match fuel with
  | O => [mm p KFuel]
  | S f => compare_step (compare_fuel f) p e a c
  end.
Definition compare_json (p : docpath) (e a : json) (c : context) : list mismatch :=
  compare_fuel (json_depth e) p e a c.
End Compare.
