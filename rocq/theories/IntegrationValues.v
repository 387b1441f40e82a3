(** Model of rust/pact_ffi/src/mock_server/handles.rs:982-1080
    [from_integration_json_v2]: paths, query parameters, headers and status codes
    given as texts that may hold a JSON document with a matcher, and of the
    metadata values of [pactffi_with_metadata] (1222-1315).

    The JSON parser is a parameter [parse] ([serde_json::from_str]). *)
From Coq Require Import String List NArith ZArith Lia Bool.
From Verif Require Import Base PathExp Json MatchingRules Expr Generators RuleExpr Integration.
Import ListNotations.
Open Scope N_scope.

(** [HashMap::entry(..)] / [OccupiedEntry::remove]. *)
Fixpoint hm_remove {A} (k : docpath) (m : list (docpath * A)) : list (docpath * A) :=
  match m with
  | [] => []
  | (k', v) :: m' => if path_eqb k k' then m' else (k', v) :: hm_remove k m'
  end.

(** 998-999. *)
Definition is_path_or_status (n : category_name) : bool := match n with CPath | CStatus => true | _ => false end.
Definition is_query_or_header (n : category_name) : bool := match n with CQuery | CHeader => true | _ => false end.
(** [path.parent().unwrap_or(DocPath::root())]. *)
Definition parent_or_root (p : docpath) : docpath := match parent p with Some q => q | None => path_root end.

(** 1031-1038: the rules of the base name become those of its first value. *)
Definition rekey_first (p : docpath) (c : xcategory) : xcategory :=
  let up := parent_or_root p in
  match hm_get up (cat_rules c) with
  | Some rl => mkCat (cat_name c) (hm_insert (push_index up 0) rl (hm_remove up (cat_rules c)))
  | None => c
  end.

Section Values.
Variable w : world.
Variable junk : str -> nat.
Variable parse : str -> option json.

Definition texts_of (v : json) : str + list str :=
  match v with
  | JArr values => inr (map (json_to_string w) values)
  | _ => inl (json_to_string w v)
  end.

(** 1004-1062: an object with "pact:matcher:type". *)
Definition matcher_value (m : list (str * json)) (path : docpath) (index : N) (st : store) : outcome (json * store) unit :=
  let rules := matchers_from_integration_json w junk m in
  bind (match rules with Panic => Panic | _ => Ok tt end) (fun _ =>
  bind (match obj_get (S_ "value") m with
        | Some (JArr array) => process_array (process w junk (json_depth (JObj m))) array path true false st
        | Some val => Ok (val, st)
        | None => Ok (JNull, st)
        end) (fun r =>
    let n := cat_name (st_rules st) in
    let up p := if is_path_or_status n then parent_or_root p else p in
    let st := snd r in
    let st :=
      match rules with
      | Ok (rules, generator) =>
          let p := up path in
          let c := if is_query_or_header n && (0 <? index) then rekey_first p (st_rules st) else st_rules st in
          let c := fold_left (fun c rule => x_add_rule c p rule And) rules c in
          add_gen_opt (up p) generator (mkStore c (st_gens st))
      | _ => st
      end in
    let st :=
      match obj_get generator_type m with
      | Some gen => add_gen_opt (up path) (gen_from_map w (json_to_string w gen) m) st
      | None => st
      end in
    Ok (fst r, st))).

(** 982-1080 [from_integration_json_v2]; [inl] is one value, [inr] many. *)
Definition from_integration_json_v2 (value : str) (path : docpath) (index : N) (st : store)
  : outcome ((str + list str) * store) unit :=
  match parse value with
  | Some (JObj m) =>
      if obj_has matcher_type m then bind (matcher_value m path index st) (fun r => Ok (texts_of (fst r), snd r))
      else Ok (texts_of (match obj_get (S_ "value") m with Some v => v | None => JNull end), st)
  | _ => Ok (inl value, st)
  end.

(** 1256-1268 and its copies: a metadata value; [None] of [parse] is a text that is not JSON. The key must be a
    path expression ([DocPath::new(key).unwrap()]). *)
Definition metadata_value (key value : str) (st : store) : outcome (json * store) unit :=
  match parse value with
  | Some json =>
      match json with
      | JObj _ | JArr _ =>
          match path_new_w w key with
          | Ok p => process w junk (json_depth json) false false false p json st
          | _ => Panic
          end
      | _ => Ok (json, st)
      end
  | None => Ok (JStr value, st)
  end.
End Values.
