(** Model of matching rules: rust/pact_models/src/matchingrules/mod.rs and the
    [HttpStatus] type of rust/pact_models/src/lib.rs.

    Not modelled: generators attached to array-contains variants and to
    each-key / each-value definitions, error messages, logging. *)
From Coq Require Import String List NArith ZArith Lia Bool Floats.SpecFloat.
From Verif Require Import Base PathExp Json.
Import ListNotations.
Open Scope N_scope.

(** lib.rs:345-364 [enum HttpStatus]; explicit codes are u16. *)
Inductive http_status :=
| HInformation | HSuccess | HRedirect | HClientError | HServerError
| HStatusCodes (codes : list N) | HNonError | HError.

(** mod.rs:639-644 [enum RuleLogic]. *)
Inductive logic := And | Or.
Definition logic_eqb (a b : logic) : bool :=
  match a, b with And, And => true | Or, Or => true | _, _ => false end.

(** mod.rs:816-834 [enum Category]. *)
Inductive category_name := CMethod | CPath | CHeader | CQuery | CBody | CStatus | CContents | CMetadata.
Definition cat_index (c : category_name) : N :=
  match c with
  | CMethod => 0 | CPath => 1 | CHeader => 2 | CQuery => 3 | CBody => 4 | CStatus => 5
  | CContents => 6 | CMetadata => 7
  end.
Definition cat_eqb (a b : category_name) : bool := cat_index a =? cat_index b.

(** expressions.rs:131-139 [enum ValueType]. *)
Inductive value_type := VUnknown | VString | VNumber | VInteger | VDecimal | VBoolean.
Definition vt_index (v : value_type) : N :=
  match v with VUnknown => 0 | VString => 1 | VNumber => 2 | VInteger => 3 | VDecimal => 4 | VBoolean => 5 end.

(** mod.rs:657-665 [struct RuleList], over a type [R] of rules. *)
Record rulelist_ (R : Type) := mkRules { rl_rules : list R; rl_logic : logic; rl_cascaded : bool }.
Arguments mkRules {R}. Arguments rl_rules {R}. Arguments rl_logic {R}. Arguments rl_cascaded {R}.

(** mod.rs:916-923 [struct MatchingRuleCategory]: the hash map from document
    paths as its entries in iteration order. *)
Record category_ (R : Type) := mkCat { cat_name : category_name; cat_rules : list (docpath * rulelist_ R) }.
Arguments mkCat {R}. Arguments cat_name {R}. Arguments cat_rules {R}.

(** expressions.rs:196-204 [struct MatchingRuleDefinition] without its
    generator; a rule is [inl], an unresolved reference to a name is [inr]. *)
Record definition_ (R : Type) := mkDef {
  def_value : str; def_type : value_type; def_rules : list (R + str); def_expr : str }.
Arguments mkDef {R}. Arguments def_value {R}. Arguments def_type {R}. Arguments def_rules {R}. Arguments def_expr {R}.

(** mod.rs:61-108 [enum MatchingRule] (array-contains variants without their generators). *)
Inductive rule :=
| REquality
| RRegex (s : str)
| RType
| RMinType (min : N)
| RMaxType (max : N)
| RMinMaxType (min max : N)
| RTimestamp (s : str)
| RTime (s : str)
| RDate (s : str)
| RInclude (s : str)
| RNumber
| RInteger
| RDecimal
| RNull
| RContentType (s : str)
| RArrayContains (variants : list (N * category_ rule))
| RValues
| RBoolean
| RStatusCode (s : http_status)
| RNotEmpty
| RSemver
| REachKey (d : definition_ rule)
| REachValue (d : definition_ rule).

Notation rulelist := (rulelist_ rule).
Notation category := (category_ rule).
Notation definition := (definition_ rule).

(** Induction principle with hypotheses for nested rules. *)
Definition cat_all (P : rule -> Prop) (c : category) : Prop :=
  Forall (fun pr => Forall P (rl_rules (snd pr))) (cat_rules c).
Definition item_all (P : rule -> Prop) (x : rule + str) : Prop :=
  match x with inl r => P r | inr _ => True end.
Definition def_all (P : rule -> Prop) (d : definition) : Prop := Forall (item_all P) (def_rules d).
Section RuleInd.
  Variable P : rule -> Prop.
  Hypothesis Hleaf : forall r,
    match r with RArrayContains _ | REachKey _ | REachValue _ => True | _ => P r end.
  Hypothesis Harr : forall vs, Forall (fun v => cat_all P (snd v)) vs -> P (RArrayContains vs).
  Hypothesis Hkey : forall d, def_all P d -> P (REachKey d).
  Hypothesis Hval : forall d, def_all P d -> P (REachValue d).
  Fixpoint rule_ind' (r : rule) : P r :=
    let def_go := fix go (l : list (rule + str)) : Forall (item_all P) l :=
        match l with
        | [] => Forall_nil _
        | x :: l' =>
            Forall_cons x
              (match x as y return item_all P y with
               | inl r => rule_ind' r
               | inr _ => I
               end) (go l')
        end in
    match r as r' return P r' with
    | RArrayContains vs => Harr vs
        ((fix go (vs : list (N * category)) : Forall (fun v => cat_all P (snd v)) vs :=
            match vs with
            | [] => Forall_nil _
            | (i, c) :: vs' =>
                Forall_cons (i, c)
                  (match c as c' return cat_all P (snd (i, c')) with
                   | mkCat nm prs =>
                       (fix go2 (l : list (docpath * rulelist)) : Forall (fun pr => Forall P (rl_rules (snd pr))) l :=
                          match l with
                          | [] => Forall_nil _
                          | (p, rl) :: l' =>
                              Forall_cons (p, rl)
                                (match rl as rl' return Forall P (rl_rules (snd (p, rl'))) with
                                 | mkRules rs lg cs =>
                                     (fix go3 (l : list rule) : Forall P l :=
                                        match l with
                                        | [] => Forall_nil _
                                        | x :: l' => Forall_cons x (rule_ind' x) (go3 l')
                                        end) rs
                                 end) (go2 l')
                          end) prs
                   end) (go vs')
            end) vs)
    | REachKey d => Hkey d (match d as d' return def_all P d' with mkDef v t rs e => def_go rs end)
    | REachValue d => Hval d (match d as d' return def_all P d' with mkDef v t rs e => def_go rs end)
    | r0 => Hleaf r0
    end.
End RuleInd.

(** * Rule lists and categories *)
(** mod.rs:670-676, 806-810 [RuleList::empty], [Default]; 679-685 [equality]; 688-694 [new]. *)
Definition rl_empty (l : logic) : rulelist := mkRules [] l false.
Definition rl_default : rulelist := rl_empty And.
Definition rl_equality : rulelist := mkRules [REquality] And false.
Definition rl_new (r : rule) : rulelist := mkRules [r] And false.
(** mod.rs:697-699 [is_empty]; 749-754 [as_cascaded]. *)
Definition rl_is_empty (rl : rulelist) : bool := match rl_rules rl with [] => true | _ => false end.
Definition as_cascaded (rl : rulelist) (b : bool) : rulelist := mkRules (rl_rules rl) (rl_logic rl) b.
(** mod.rs:757-761 [add_rules]. *)
Definition rl_add_rules (a b : rulelist) : rulelist := mkRules (rl_rules a ++ rl_rules b) (rl_logic a) (rl_cascaded a).

(** mod.rs:478-485 [is_values_matcher]; 510-517 [can_cascade]; 488-496 [is_type_matcher]. *)
Definition is_values_matcher (r : rule) : bool :=
  match r with RValues => true | REachValue _ => true | _ => false end.
Definition can_cascade (r : rule) : bool :=
  match r with RValues => false | REachValue _ => false | REachKey _ => false | _ => true end.
Definition is_type_matcher (r : rule) : bool :=
  match r with RType | RMinType _ | RMaxType _ | RMinMaxType _ _ => true | _ => false end.
(** mod.rs:714-722 [type_matcher_defined]; 725-727 [values_matcher_defined]. *)
Definition rl_type_matcher_defined (rl : rulelist) : bool := existsb is_type_matcher (rl_rules rl).
Definition rl_values_matcher_defined (rl : rulelist) : bool := existsb is_values_matcher (rl_rules rl).

(** mod.rs:927-934 [MatchingRuleCategory::empty]; 937-946 [equality]. *)
Definition cat_empty (n : category_name) : category := mkCat n [].
Definition cat_equality (n : category_name) : category := mkCat n [(path_empty, rl_equality)].
Definition cat_is_empty (c : category) : bool := match cat_rules c with [] => true | _ => false end.

(** [HashMap::get] with a [DocPath] key (keys compare by their text). *)
Fixpoint hm_get {A} (k : docpath) (m : list (docpath * A)) : option A :=
  match m with
  | [] => None
  | (k', v) :: m' => if path_eqb k k' then Some v else hm_get k m'
  end.
(** [entry(key).or_insert_with(|| RuleList::empty(logic)).rules.push(rule)]:
    mod.rs:958-971 [rule_from_json], 974-982 [add_rule]. A new key may land
    anywhere in a hash map; the model appends it. *)
Fixpoint hm_push (k : docpath) (r : rule) (l : logic) (m : list (docpath * rulelist)) : list (docpath * rulelist) :=
  match m with
  | [] => [(k, mkRules [r] l false)]
  | (k', rl) :: m' =>
      if path_eqb k k' then (k', mkRules (rl_rules rl ++ [r]) (rl_logic rl) (rl_cascaded rl)) :: m'
      else (k', rl) :: hm_push k r l m'
  end.
Definition cat_add_rule (c : category) (k : docpath) (r : rule) (l : logic) : category :=
  mkCat (cat_name c) (hm_push k r l (cat_rules c)).

(** mod.rs:985-992 [filter]. *)
Definition cat_filter (f : docpath -> bool) (c : category) : category :=
  mkCat (cat_name c) (filter (fun pr => f (fst pr)) (cat_rules c)).

(** [Iterator::max_by_key]: the last of the greatest elements. *)
Fixpoint max_by_key {A} (f : A -> N) (l : list A) : option A :=
  match l with
  | [] => None
  | x :: l' =>
      match max_by_key f l' with
      | None => Some x
      | Some y => if f y <? f x then Some x else Some y
      end
  end.

(** mod.rs:994-1000 [max_by_path]; the product [w * t] is in [usize]. *)
Definition path_score (path : list str) (p : docpath) : N :=
  let wt := path_weight p path in (fst wt * snd wt) mod two64.
Definition max_by_path (c : category) (path : list str) : rulelist :=
  match max_by_key (fun pr => path_score path (fst pr))
          (filter (fun pr => 0 <? fst (path_weight (fst pr) path)) (cat_rules c)) with
  | Some (p, rl) => as_cascaded rl (negb (N.of_nat (length (path_tokens p)) =? N.of_nat (length path)))
  | None => rl_default
  end.

(** mod.rs:1063-1071 [resolve_matchers_for_path]. *)
Definition resolve_matchers_for_path (c : category) (path : list str) : category :=
  match cat_name c with
  | CHeader | CQuery | CBody | CContents | CMetadata => cat_filter (fun p => matches_path p path) c
  | _ => c
  end.
(** mod.rs:1055-1059 [matcher_is_defined]. *)
Definition matcher_is_defined (c : category) (path : list str) : bool :=
  negb (cat_is_empty (resolve_matchers_for_path c path)).
(** mod.rs:1082-1084 [as_rule_list]. *)
Definition as_rule_list (c : category) : rulelist :=
  match cat_rules c with (_, rl) :: _ => rl | [] => rl_default end.
(** mod.rs:1074-1079 [select_best_matcher]. *)
Definition select_best_matcher (c : category) (path : list str) : rulelist :=
  match cat_name c with
  | CBody | CMetadata => max_by_path c path
  | _ => as_rule_list (resolve_matchers_for_path c path)
  end.

(** mod.rs:1199-1207 [MatchingRuleCategory::add_rules]. *)
Fixpoint hm_merge_one (k : docpath) (rl : rulelist) (m : list (docpath * rulelist)) : list (docpath * rulelist) :=
  match m with
  | [] => [(k, rl)]
  | (k', x) :: m' => if path_eqb k k' then (k', rl_add_rules x rl) :: m' else (k', x) :: hm_merge_one k rl m'
  end.
Definition cat_add_rules (c other : category) : category :=
  mkCat (cat_name c) (fold_left (fun m pr => hm_merge_one (fst pr) (snd pr) m) (cat_rules other) (cat_rules c)).

(** * Writing *)
(** lib.rs:401-413 [HttpStatus::to_json]. *)
Definition status_to_json (s : http_status) : json :=
  match s with
  | HStatusCodes codes => JArr (map (fun c => JNum (PosInt c)) codes)
  | HInformation => JStr (S_ "info")
  | HSuccess => JStr (S_ "success")
  | HRedirect => JStr (S_ "redirect")
  | HClientError => JStr (S_ "clientError")
  | HServerError => JStr (S_ "serverError")
  | HNonError => JStr (S_ "nonError")
  | HError => JStr (S_ "error")
  end.

(** mod.rs:647-654 [RuleLogic::to_json]. *)
Definition logic_to_json (l : logic) : json := JStr (match l with And => S_ "AND" | Or => S_ "OR" end).

(** mod.rs:701-706 [RuleList::to_v3_json], for a function [tj] that writes a rule. *)
Definition rl_to_v3_json {R} (tj : R -> json) (rl : rulelist_ R) : json :=
  JObj [(S_ "combine", logic_to_json (rl_logic rl)); (S_ "matchers", JArr (map tj (rl_rules rl)))].

(** mod.rs:1003-1018 [MatchingRuleCategory::to_v3_json]: the key of one entry, then the fold. *)
Definition v3_key (n : category_name) (p : docpath) : str :=
  match n with
  | CHeader | CQuery => match first_field p with Some f => f | None => path_expr p end
  | _ => path_expr p
  end.
Definition cat_to_v3_json {R} (tj : R -> json) (c : category_ R) : json :=
  JObj (fold_left (fun m pr => obj_insert (v3_key (cat_name c) (fst pr)) (rl_to_v3_json tj (snd pr)) m)
                  (cat_rules c) []).

(** mod.rs:181-230 the value and rules of an each-key / each-value rule. *)
Definition def_to_json {R} (tj : R -> json) (nm : str) (d : definition_ R) : json :=
  JObj ([(S_ "match", JStr nm);
         (S_ "rules", JArr (map (fun x => match x with inl r => tj r | inr _ => JNull end) (def_rules d)))]
        ++ match def_value d with [] => [] | v => [(S_ "value", JStr v)] end).

(** mod.rs:142-231 [MatchingRule::to_json] when no reference is unresolved
    (see [has_unresolved] for the panic). *)
Fixpoint rule_to_json (r : rule) : json :=
  match r with
  | REquality => JObj [(S_ "match", JStr (S_ "equality"))]
  | RRegex s => JObj [(S_ "match", JStr (S_ "regex")); (S_ "regex", JStr s)]
  | RType => JObj [(S_ "match", JStr (S_ "type"))]
  | RMinType n => JObj [(S_ "match", JStr (S_ "type")); (S_ "min", JNum (PosInt n))]
  | RMaxType n => JObj [(S_ "match", JStr (S_ "type")); (S_ "max", JNum (PosInt n))]
  | RMinMaxType a b => JObj [(S_ "match", JStr (S_ "type")); (S_ "max", JNum (PosInt b)); (S_ "min", JNum (PosInt a))]
  | RTimestamp s => JObj [(S_ "format", JStr s); (S_ "match", JStr (S_ "datetime"))]
  | RTime s => JObj [(S_ "format", JStr s); (S_ "match", JStr (S_ "time"))]
  | RDate s => JObj [(S_ "format", JStr s); (S_ "match", JStr (S_ "date"))]
  | RInclude s => JObj [(S_ "match", JStr (S_ "include")); (S_ "value", JStr s)]
  | RNumber => JObj [(S_ "match", JStr (S_ "number"))]
  | RInteger => JObj [(S_ "match", JStr (S_ "integer"))]
  | RDecimal => JObj [(S_ "match", JStr (S_ "decimal"))]
  | RBoolean => JObj [(S_ "match", JStr (S_ "boolean"))]
  | RNull => JObj [(S_ "match", JStr (S_ "null"))]
  | RContentType s => JObj [(S_ "match", JStr (S_ "contentType")); (S_ "value", JStr s)]
  | RArrayContains variants =>
      JObj [(S_ "match", JStr (S_ "arrayContains"));
            (S_ "variants", JArr (map (fun v => match v with
               (i, c) => JObj [(S_ "index", JNum (PosInt i)); (S_ "rules", cat_to_v3_json rule_to_json c)] end) variants))]
  | RValues => JObj [(S_ "match", JStr (S_ "values"))]
  | RStatusCode s => JObj [(S_ "match", JStr (S_ "statusCode")); (S_ "status", status_to_json s)]
  | RNotEmpty => JObj [(S_ "match", JStr (S_ "notEmpty"))]
  | RSemver => JObj [(S_ "match", JStr (S_ "semver"))]
  | REachKey d => def_to_json rule_to_json (S_ "eachKey") d
  | REachValue d => def_to_json rule_to_json (S_ "eachValue") d
  end.

(** mod.rs:187, 208: [expect_left] aborts when a definition anywhere inside the
    rule still holds a reference. *)
Fixpoint has_unresolved (r : rule) : bool :=
  match r with
  | RArrayContains variants =>
      existsb (fun v => match v with (_, c) =>
        existsb (fun pr => match pr with (_, rl) => existsb has_unresolved (rl_rules rl) end) (cat_rules c) end) variants
  | REachKey d | REachValue d =>
      existsb (fun x => match x with inl r => has_unresolved r | inr _ => true end) (def_rules d)
  | _ => false
  end.
Definition rule_to_json_outcome (r : rule) : outcome json unit :=
  if has_unresolved r then Panic else Ok (rule_to_json r).

(** mod.rs:708-713 [RuleList::to_v2_json]. *)
Definition rl_to_v2_json (rl : rulelist) : json :=
  match rl_rules rl with
  | r :: _ => rule_to_json r
  | [] => JObj []
  end.

(** mod.rs:871-882 the name of a category; 837-843 [v2_form]. *)
Definition cat_display (c : category_name) : str :=
  match c with
  | CMethod => S_ "method" | CPath => S_ "path" | CHeader => S_ "header" | CQuery => S_ "query"
  | CBody => S_ "body" | CStatus => S_ "status" | CContents => S_ "contents" | CMetadata => S_ "metadata"
  end.
Definition cat_v2_form (c : category_name) : str :=
  match c with CHeader => S_ "headers" | _ => cat_display c end.

(** mod.rs:1021-1046 [MatchingRuleCategory::to_v2_json]: the keys and values
    inserted, in order. [push_path] takes the steps of the rule's path. *)
Definition cat_to_v2_json (c : category) : list (str * json) :=
  map (fun pr =>
         let key := match cat_name c with
                    | CPath => S_ "$.path"
                    | CBody => replace_char 36 (S_ "$.body") (path_expr (fst pr))
                    | CHeader | CQuery =>
                        path_expr (push_path (push_field path_root (cat_v2_form (cat_name c))) (fst pr))
                    | n => S_ "$." ++ cat_v2_form n ++ S_ "." ++ path_expr (fst pr)
                    end in
         (key, rl_to_v2_json (snd pr)))
      (cat_rules c).

(** mod.rs:1265-1268 [struct MatchingRules]: entries of the hash map from categories. *)
Definition matching_rules := list (category_name * category).

(** mod.rs:1393-1412 [MatchingRules::to_v3_json]. *)
Definition mr_to_v3_json (m : matching_rules) : json :=
  JObj (fold_left (fun acc nc =>
    match fst nc with
    | CPath =>
        match hm_get path_empty (cat_rules (snd nc)) with
        | Some rl => obj_insert (cat_display (fst nc)) (rl_to_v3_json rule_to_json rl) acc
        | None => match hm_get path_root (cat_rules (snd nc)) with
                  | Some rl => obj_insert (cat_display (fst nc)) (rl_to_v3_json rule_to_json rl) acc
                  | None => acc
                  end
        end
    | _ =>
        match cat_to_v3_json rule_to_json (snd nc) with
        | JObj [] => acc
        | v => obj_insert (cat_display (fst nc)) v acc
        end
    end) m []).

(** mod.rs:1414-1421 [MatchingRules::to_v2_json]. *)
Definition mr_to_v2_json (m : matching_rules) : json :=
  JObj (fold_left (fun acc nc =>
    fold_left (fun acc kv => obj_insert (fst kv) (snd kv) acc) (cat_to_v2_json (snd nc)) acc) m []).

(** * Reading *)
(** One constructor per source of error; messages are dropped. *)
Inductive rule_error :=
| NotAnObject | NoMatchField | MissingField | BadStatus | BadVariants | BadRules | UnknownType
| BadPath (e : path_error) | NotWellFormed | NoCategory
| RuleFuel (* not a Rust error: the model's recursion bound; proved unreachable *).

Definition mapM {A B E} (f : A -> outcome B E) : list A -> outcome (list B) E :=
  fix go l := match l with
  | [] => Ok []
  | x :: l' => bind (f x) (fun y => bind (go l') (fun ys => Ok (y :: ys)))
  end.
(** A loop that threads a state through calls that may fail. *)
Definition foldM {A B E} (f : B -> A -> outcome B E) : list A -> B -> outcome B E :=
  fix go l acc := match l with
  | [] => Ok acc
  | x :: l' => bind (f acc x) (fun acc' => go l' acc')
  end.

(** [str::parse::<u16>()]. *)
Definition parse_u16 (s : str) : option N :=
  match parse_usize s with
  | Some v => if v <? 65536 then Some v else None
  | None => None
  end.

(** [f64 as u16] saturates. *)
Definition float_to_u16 (f : SpecFloat.spec_float) : N :=
  let v := float_to_usize f in if v <? 65536 then v else 65535.

(** lib.rs:371-398 [HttpStatus::from_json]; numbers are cast with [as u16]. *)
Definition code_from_json (j : json) : option N :=
  match j with
  | JNum (PosInt v) => Some (v mod 65536)
  | JNum (NegInt z) => Some (Z.to_N (z mod 65536))
  | JNum (Float f) => Some (float_to_u16 f)
  | JStr s => parse_u16 s
  | _ => None
  end.
Fixpoint codes_from_json (l : list json) : option (list N) :=
  match l with
  | [] => Some []
  | x :: l' => match code_from_json x, codes_from_json l' with
               | Some c, Some cs => Some (c :: cs)
               | _, _ => None
               end
  end.
Definition status_from_json (j : json) : option http_status :=
  match j with
  | JStr s =>
      if str_eqb s (S_ "info") then Some HInformation
      else if str_eqb s (S_ "success") then Some HSuccess
      else if str_eqb s (S_ "redirect") then Some HRedirect
      else if str_eqb s (S_ "clientError") then Some HClientError
      else if str_eqb s (S_ "serverError") then Some HServerError
      else if str_eqb s (S_ "nonError") then Some HNonError
      else if str_eqb s (S_ "error") then Some HError
      else None
  | JArr a => option_map HStatusCodes (codes_from_json a)
  | _ => None
  end.

Section Reading.
Variable w : world.

Definition path_new_w (s : str) : outcome docpath rule_error :=
  match path_new (uni_alpha w) (uni_numeric w) s with
  | Ok p => Ok p
  | Err e => Err (BadPath e)
  | Panic => Panic
  end.

(** The logic of a JSON rule list (mod.rs:1089-1096, 1170-1177). *)
Definition logic_from_json (v : json) : logic :=
  match json_get (S_ "combine") v with
  | Some val => if str_eqb (to_upper w (json_to_string w val)) (S_ "OR") then Or else And
  | None => And
  end.

Section With.
Variable rj : json -> outcome rule rule_error. (* MatchingRule::from_json on sub-values *)

(** mod.rs:958-971 [rule_from_json]. *)
Definition cat_rule_from_json (k : docpath) (l : logic) (c : category) (j : json) : outcome category rule_error :=
  bind (rj j) (fun r => Ok (cat_add_rule c k r l)).

(** mod.rs:1169-1184 [add_rule_list]. *)
Definition add_rule_list (c : category) (k : docpath) (v : json) : outcome category rule_error :=
  let l := logic_from_json v in
  match json_get (S_ "matchers") v with
  | Some (JArr array) => foldM (cat_rule_from_json k l) array c
  | _ => Ok c
  end.

(** mod.rs:1087-1116 [add_rules_from_json]. *)
Definition add_rules_from_json (c : category) (rules : json) : outcome category rule_error :=
  if cat_eqb (cat_name c) CPath && match json_get (S_ "matchers") rules with Some _ => true | None => false end then
    add_rule_list c path_empty rules
  else match rules with
       | JObj m =>
           if obj_has (S_ "matchers") m then add_rule_list c path_empty rules
           else foldM (fun c kv => bind (path_new_w (fst kv)) (fun p => add_rule_list c p (snd kv))) m c
       | _ => Ok c
       end.

(** mod.rs:1119-1167 [add_v3_rules_from_json]. *)
Definition add_v3_rules_from_json (c : category) (rules : json) : outcome category rule_error :=
  if cat_eqb (cat_name c) CPath && match json_get (S_ "matchers") rules with Some _ => true | None => false end then
    add_rule_list c path_empty rules
  else match rules with
       | JObj m =>
           if obj_has (S_ "matchers") m then add_rule_list c path_empty rules
           else if cat_eqb (cat_name c) CQuery || cat_eqb (cat_name c) CHeader then
             foldM (fun c kv => add_rule_list c (push_field path_root (fst kv)) (snd kv)) m c
           else foldM (fun c kv => bind (path_new_w (fst kv)) (fun p => add_rule_list c p (snd kv))) m c
       | _ => Err NotWellFormed
       end.

(** mod.rs:42-58 [rules_from_json]. *)
Definition rules_from_json (attributes : list (str * json)) : outcome (list (rule + str)) rule_error :=
  match obj_get (S_ "rules") attributes with
  | Some (JArr rules) => bind (mapM rj rules) (fun rs => Ok (map inl rs))
  | Some _ => Err BadRules
  | None => Ok []
  end.

(** mod.rs:396-427 one array-contains variant (without generators). *)
Definition variant_from_json (v : json) : outcome (N * category) rule_error :=
  let index := match json_to_num (json_get (S_ "index") v) with Some i => i | None => 0 end in
  match json_get (S_ "rules") v with
  | Some rules => bind (add_rules_from_json (cat_empty CBody) rules) (fun c => Ok (index, c))
  | None => Ok (index, cat_add_rule (cat_empty CBody) path_empty REquality And)
  end.

(** mod.rs:440-467 an each-key / each-value definition. *)
Definition def_from_json (attributes : list (str * json)) : outcome definition rule_error :=
  bind (rules_from_json attributes) (fun rs =>
    Ok (mkDef (match obj_get (S_ "value") attributes with Some v => json_to_string w v | None => [] end)
              VUnknown rs [])).

Definition req {A} (o : option A) (f : A -> rule) : outcome rule rule_error :=
  match o with Some v => Ok (f v) | None => Err MissingField end.
Definition get_format (m : list (str * json)) (ty : str) : str :=
  match obj_get (S_ "format") m with
  | Some s => json_to_string w s
  | None => match obj_get ty m with Some s => json_to_string w s | None => [] end
  end.

(** mod.rs:335-472 [MatchingRule::create] on an attribute object. *)
Definition rule_create (ty : str) (m : list (str * json)) : outcome rule rule_error :=
  let is s := str_eqb ty (S_ s) in
  let text k := option_map (json_to_string w) (obj_get (S_ k) m) in
  let numb k := json_to_num (obj_get (S_ k) m) in
  if is "regex"%string then req (text "regex"%string) RRegex
  else if is "equality"%string then Ok REquality
  else if is "include"%string then req (text "value"%string) RInclude
  else if is "type"%string then
    match numb "min"%string, numb "max"%string with
    | Some a, Some b => Ok (RMinMaxType a b)
    | Some a, None => Ok (RMinType a)
    | None, Some b => Ok (RMaxType b)
    | None, None => Ok RType
    end
  else if is "number"%string then Ok RNumber
  else if is "integer"%string then Ok RInteger
  else if is "decimal"%string then Ok RDecimal
  else if is "real"%string then Ok RDecimal
  else if is "boolean"%string then Ok RBoolean
  else if is "min"%string then req (numb "min"%string) RMinType
  else if is "max"%string then req (numb "max"%string) RMaxType
  else if is "min-type"%string then req (numb "min"%string) RMinType
  else if is "max-type"%string then req (numb "max"%string) RMaxType
  else if is "timestamp"%string || is "datetime"%string then Ok (RTimestamp (get_format m ty))
  else if is "date"%string then Ok (RDate (get_format m ty))
  else if is "time"%string then Ok (RTime (get_format m ty))
  else if is "null"%string then Ok RNull
  else if is "contentType"%string || is "content-type"%string then req (text "value"%string) RContentType
  else if is "arrayContains"%string || is "array-contains"%string then
    match obj_get (S_ "variants") m with
    | Some (JArr variants) => bind (mapM variant_from_json variants) (fun vs => Ok (RArrayContains vs))
    | Some _ => Err BadVariants
    | None => Err MissingField
    end
  else if is "values"%string then Ok RValues
  else if is "statusCode"%string || is "status-code"%string then
    match obj_get (S_ "status") m with
    | Some s => match status_from_json s with Some st => Ok (RStatusCode st) | None => Err BadStatus end
    | None => Ok (RStatusCode HSuccess)
    end
  else if is "notEmpty"%string || is "not-empty"%string then Ok RNotEmpty
  else if is "semver"%string then Ok RSemver
  else if is "eachKey"%string || is "each-key"%string then bind (def_from_json m) (fun d => Ok (REachKey d))
  else if is "eachValue"%string || is "each-value"%string then bind (def_from_json m) (fun d => Ok (REachValue d))
  else Err UnknownType.

(** mod.rs:113-139 [MatchingRule::from_json]. *)
Definition from_json_with (j : json) : outcome rule rule_error :=
  match j with
  | JObj m =>
      match (match obj_get (S_ "match") m with
             | Some v => Some v
             | None => obj_get (S_ "pact:matcher:type") m
             end) with
      | Some mv => rule_create (json_to_string w mv) m
      | None =>
          match obj_get (S_ "regex") m with
          | Some v => Ok (RRegex (json_to_string w v))
          | None =>
          match json_to_num (obj_get (S_ "min") m) with
          | Some v => Ok (RMinType v)
          | None =>
          match json_to_num (obj_get (S_ "max") m) with
          | Some v => Ok (RMaxType v)
          | None =>
          match obj_get (S_ "timestamp") m with
          | Some v => Ok (RTimestamp (json_to_string w v))
          | None =>
          match obj_get (S_ "time") m with
          | Some v => Ok (RTime (json_to_string w v))
          | None =>
          match obj_get (S_ "date") m with
          | Some v => Ok (RDate (json_to_string w v))
          | None => Err NoMatchField
          end end end end end end
      end
  | _ => Err NotAnObject
  end.
End With.

(** [MatchingRule::from_json], the recursion bounded by [fuel]. *)
Fixpoint rule_from_json_fuel (fuel : nat) (j : json) : outcome rule rule_error :=
  match fuel with
  | O => Err RuleFuel
  | S f => from_json_with (rule_from_json_fuel f) j
  end.
Definition rule_from_json (j : json) : outcome rule rule_error := rule_from_json_fuel (json_depth j) j.

(** mod.rs:845-862, 897-901 [Category::from(&str)]: unknown names are BODY. *)
Definition category_from (s : str) : category_name :=
  let l := to_lower w s in
  if str_eqb l (S_ "method") then CMethod
  else if str_eqb l (S_ "path") then CPath
  else if str_eqb l (S_ "header") then CHeader
  else if str_eqb l (S_ "headers") then CHeader
  else if str_eqb l (S_ "query") then CQuery
  else if str_eqb l (S_ "body") then CBody
  else if str_eqb l (S_ "status") then CStatus
  else if str_eqb l (S_ "contents") then CContents
  else if str_eqb l (S_ "metadata") then CMetadata
  else CBody.

(** mod.rs:1284-1293 [add_category] then an update of that category. *)
Fixpoint mr_update (n : category_name) (f : category -> outcome category rule_error) (m : matching_rules)
  : outcome matching_rules rule_error :=
  match m with
  | [] => bind (f (cat_empty n)) (fun c => Ok [(n, c)])
  | (n', c) :: m' =>
      if cat_eqb n n' then bind (f c) (fun c' => Ok ((n', c') :: m'))
      else bind (mr_update n f m') (fun m'' => Ok ((n', c) :: m''))
  end.

(** The rules nested in a rule map: a rule deep enough for any value below [v]. *)
Definition rj_for (v : json) : json -> outcome rule rule_error := rule_from_json_fuel (json_depth v).

(** mod.rs:1373-1381 [load_from_v3_map]. *)
Definition load_from_v3_map (map_ : list (str * json)) : outcome matching_rules rule_error :=
  foldM (fun m kv => mr_update (category_from (fst kv)) (fun c => add_v3_rules_from_json (rj_for (snd kv)) c (snd kv)) m)
        map_ [].

(** mod.rs:1383-1391 [add_v2_rule]. *)
Definition add_v2_rule (m : matching_rules) (n : category_name) (sub : docpath) (r : json) : outcome matching_rules rule_error :=
  mr_update n (fun c => cat_rule_from_json (rj_for r) sub And c r) m.

(** [str::starts_with]. *)
Fixpoint starts_with (p s : str) : bool :=
  match p, s with
  | [], _ => true
  | x :: p', y :: s' => (x =? y) && starts_with p' s'
  | _, [] => false
  end.

(** The field names of a path (mod.rs:1347-1350, 1356-1359). *)
Definition field_names (p : docpath) : list str :=
  flat_map (fun t => match t with TField n => [n] | _ => [] end) (path_tokens p).

(** mod.rs:1335-1371 [load_from_v2_map]: one entry. *)
Definition load_v2_entry (m : matching_rules) (kv : str * json) : outcome matching_rules rule_error :=
  let (key, v) := kv in
  if starts_with (S_ "$.body") key then
    if str_eqb key (S_ "$.body") then add_v2_rule m CBody path_root v
    else bind (path_new_w (S_ "$" ++ skipn 6 key)) (fun p => add_v2_rule m CBody p v)
  else if starts_with (S_ "$.headers") key then
    bind (path_new_w key) (fun path =>
      match field_names path with
      | _ :: header :: _ => bind (path_new_w header) (fun p => add_v2_rule m CHeader p v)
      | _ => Err NoCategory
      end)
  else
    bind (path_new_w key) (fun path =>
      match field_names path with
      | [] => Err NoCategory
      | cat :: rest =>
          bind (match rest with [] => Ok path_empty | name :: _ => path_new_w name end) (fun p =>
            add_v2_rule m (category_from cat) p v)
      end).
Definition load_from_v2_map (map_ : list (str * json)) : outcome matching_rules rule_error :=
  foldM load_v2_entry map_ [].

(** mod.rs:1511-1537 [matchers_from_json] on the value of the matching rules attribute. *)
Definition matchers_from_json (value : option json) : outcome matching_rules rule_error :=
  match value with
  | Some (JObj m) =>
      if starts_with (S_ "$") (match m with (k, _) :: _ => k | [] => [] end) then load_from_v2_map m
      else load_from_v3_map m
  | _ => Ok []
  end.
End Reading.

(** * Equality *)
Definition list_eqb {A} (eq : A -> A -> bool) : list A -> list A -> bool :=
  fix go a b := match a, b with
  | [], [] => true
  | x :: a', y :: b' => eq x y && go a' b'
  | _, _ => false
  end.

(** [HashMap == HashMap]: same size and every entry of the first found equal in the second. *)
Definition hm_eqb {A} (eq : A -> A -> bool) (a b : list (docpath * A)) : bool :=
  Nat.eqb (length a) (length b) &&
  forallb (fun kv => match kv with (k, v) => match hm_get k b with Some v' => eq v v' | None => false end end) a.

(** The discriminant of a rule. *)
Definition rule_tag (r : rule) : N :=
  match r with
  | REquality => 0 | RRegex _ => 1 | RType => 2 | RMinType _ => 3 | RMaxType _ => 4 | RMinMaxType _ _ => 5
  | RTimestamp _ => 6 | RTime _ => 7 | RDate _ => 8 | RInclude _ => 9 | RNumber => 10 | RInteger => 11
  | RDecimal => 12 | RNull => 13 | RContentType _ => 14 | RArrayContains _ => 15 | RValues => 16
  | RBoolean => 17 | RStatusCode _ => 18 | RNotEmpty => 19 | RSemver => 20 | REachKey _ => 21 | REachValue _ => 22
  end.

(** mod.rs:613-635 [PartialEq for MatchingRule]; 799-804 [PartialEq for RuleList]
    (the cascaded flag is ignored); 1221-1229 for categories; definitions derive it. *)
Definition rl_eqb_with {R} (eq : R -> R -> bool) (a b : rulelist_ R) : bool :=
  logic_eqb (rl_logic a) (rl_logic b) && list_eqb eq (rl_rules a) (rl_rules b).
Definition cat_eqb_with {R} (eq : R -> R -> bool) (a b : category_ R) : bool :=
  cat_eqb (cat_name a) (cat_name b) && hm_eqb (rl_eqb_with eq) (cat_rules a) (cat_rules b).
Definition def_eqb_with {R} (eq : R -> R -> bool) (a b : definition_ R) : bool :=
  str_eqb (def_value a) (def_value b) && (vt_index (def_type a) =? vt_index (def_type b)) &&
  list_eqb (fun x y => match x, y with inl r, inl r' => eq r r' | inr n, inr n' => str_eqb n n' | _, _ => false end)
           (def_rules a) (def_rules b) &&
  str_eqb (def_expr a) (def_expr b).
Fixpoint rule_eqb (a b : rule) : bool :=
  match a, b with
  | RRegex x, RRegex y => str_eqb x y
  | RMinType x, RMinType y => x =? y
  | RMaxType x, RMaxType y => x =? y
  | RMinMaxType x x', RMinMaxType y y' => (x =? y) && (x' =? y')
  | RTimestamp x, RTimestamp y => str_eqb x y
  | RTime x, RTime y => str_eqb x y
  | RDate x, RDate y => str_eqb x y
  | RInclude x, RInclude y => str_eqb x y
  | RContentType x, RContentType y => str_eqb x y
  | RArrayContains x, RArrayContains y =>
      list_eqb (fun u v => match u, v with (i, c), (i', c') => (i =? i') && cat_eqb_with rule_eqb c c' end) x y
  | REachKey d, REachKey d' => def_eqb_with rule_eqb d d'
  | REachValue d, REachValue d' => def_eqb_with rule_eqb d d'
  | _, _ => rule_tag a =? rule_tag b
  end.
Definition rl_eqb (a b : rulelist) : bool := rl_eqb_with rule_eqb a b.
Definition category_eqb (a b : category) : bool := cat_eqb_with rule_eqb a b.

(** mod.rs:770-776 [remove_duplicates]: itertools [unique] keeps the first of
    equal rules. *)
Fixpoint unique_from (seen l : list rule) : list rule :=
  match l with
  | [] => []
  | x :: l' => if existsb (fun y => rule_eqb y x) seen then unique_from seen l'
               else x :: unique_from (x :: seen) l'
  end.
Definition remove_duplicates (rl : rulelist) : rulelist :=
  mkRules (unique_from [] (rl_rules rl)) (rl_logic rl) (rl_cascaded rl).

(** * Hashing *)
(** What is fed to the hasher: integers and strings. mod.rs:581-611 [Hash for
    MatchingRule], 790-797 for rule lists, 1210-1219 for categories (entries
    sorted by path), path_exp.rs:532-536 for paths. *)
Inductive hash_item := HNum (n : N) | HText (s : str).
Definition rl_hash_with {R} (h : R -> list hash_item) (rl : rulelist_ R) : list hash_item :=
  HNum (match rl_logic rl with And => 0 | Or => 1 end) :: flat_map h (rl_rules rl).
Definition cat_hash_with {R} (h : R -> list hash_item) (c : category_ R) : list hash_item :=
  HNum (cat_index (cat_name c)) ::
  flat_map (fun kv => HText (fst kv) :: snd kv)
    (obj_of_list (map (fun pr => (path_expr (fst pr), rl_hash_with h (snd pr))) (cat_rules c))).
Fixpoint rule_hash (r : rule) : list hash_item :=
  HNum (rule_tag r) ::
  match r with
  | RRegex s | RTimestamp s | RTime s | RDate s | RInclude s | RContentType s => [HText s]
  | RMinType n | RMaxType n => [HNum n]
  | RMinMaxType a b => [HNum a; HNum b]
  | RArrayContains vs => flat_map (fun v => match v with (i, c) => HNum i :: cat_hash_with rule_hash c end) vs
  | _ => []
  end.
