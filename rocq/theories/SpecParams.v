(** Specification of the comparison of query parameters and headers under any set of matching rules. *)
From Coq Require Import Ascii String List Arith NArith ZArith Lia Bool.
From Verif Require Import Base PathExp SpecPath Json Text MatchingRules SpecRules Matchers JsonCompare SpecMatch SpecValues SpecBody Headers Query
  ContentType SpecXml SpecQuery SpecHeaders SpecHttp.
Import ListNotations.
Open Scope N_scope.

(** The rule list that applies at a place. Among body rules it is the one in force (the most specific); among the rules for
    query parameters and headers simply the first one, in the order of the rule map, whose path matches. *)
Definition first_for (m : category) (p : docpath) (rl : rulelist) : Prop :=
  exists before q after, cat_rules m = before ++ (q, rl) :: after /\ candidate (to_vec p) q /\
    forall e, In e before -> ~ candidate (to_vec p) (fst e).
Definition applies (m : category) (p : docpath) (rl : rulelist) : Prop :=
  match cat_name m with CBody => in_force m p rl | _ => first_for m p rl end.
(** By the rule list that applies, and by equality if there is none. *)
Definition by_rules (m : category) (p : docpath) (holds : rule -> bool -> Prop) : Prop :=
  exists rl, applies m p rl /\ rl_rules rl <> [] /\ combined (rl_logic rl) (rl_rules rl) (fun r => holds r (rl_cascaded rl)).
Definition decided (m : category) (p : docpath) (holds : rule -> bool -> Prop) : Prop :=
  (no_rule_at m p /\ holds REquality false) \/ by_rules m p holds.
(** The categories of rules used for them. *)
Definition searched (m : category) : Prop := cat_name m = CQuery \/ cat_name m = CHeader \/ cat_name m = CBody.

(** The place of a value of a parameter or header. *)
Definition item (p : docpath) (i : nat) : docpath := join p (show_N (N.of_nat i)).
(** The expected value for a position: the one there, or the first one. *)
Definition expected_at (e : list str) (i : nat) (v : str) : Prop :=
  nth_error e i = Some v \/ (nth_error e i = None /\ exists rest, e = v :: rest).
(** What a rule asks of the list of values as a whole. *)
Definition list_satisfies (r : rule) (cascaded : bool) (e a : list str) : Prop :=
  match r with
  | RMinType _ | RMaxType _ | RMinMaxType _ _ => cascaded = false -> size_allowed r (len a)
  | REquality => e = a
  | RNotEmpty => a <> []
  | RNull | RStatusCode _ => False
  | _ => True
  end.
(** The variants of an array-contains rule; without any, each expected value by equality. *)
Definition a_variant (e : list str) (vs : list (N * category)) (i : N) (rules : category) : Prop :=
  match vs with
  | [] => i < len e /\ rules = mkCat CBody [(path_empty, mkRules [REquality] And false)]
  | _ => In (i, rules) vs
  end.

(** One rule applied to a list of values; [value] compares two values at a place by a set of rules, [scope] is what becomes of the
    rules of a variant and of an each-value definition. *)
Section Lists.
Variable value : category -> docpath -> str -> str -> Prop.
Variable scope : category -> category.
Definition items_ok (m : category) (p : docpath) (e a : list str) : Prop :=
  (forall i x y, expected_at e i x -> nth_error a i = Some y -> value m (item p i) x y) /\
  (forall i, (length a <= i < length e)%nat -> ~ no_rule_at m (item p i)).
Definition list_rule (m : category) (p : docpath) (r : rule) (cascaded : bool) (e a : list str) : Prop :=
  e = [] \/
  match r with
  | RArrayContains vs => forall i rules, a_variant e vs i rules ->
      exists x y, nth_error e (N.to_nat i) = Some x /\ In y a /\ value (scope rules) path_root x y
  | REachValue d => cascaded = true \/ exists m', for_each_entry p d m' /\ items_ok (scope m') p e a
  | _ => list_satisfies r cascaded e a /\ items_ok m p e a
  end.
End Lists.

Section Params.
Variable w : world.
(** ** Query parameters *)
Definition text_ok (m : category) (p : docpath) (x y : str) : Prop := decided m p (fun r cascaded => xtext_satisfies w r cascaded x y).
(** With a rule at [$.name] the list of values is judged, each value at [$.name[i][0]]; without one there are as many values as
    expected, each judged at [$.name[i]]. *)
Definition param_ok (m : category) (k : str) (e a : list str) : Prop :=
  let p := join path_root k in
  by_rules m p (fun r cascaded => list_rule (fun m q x y => text_ok m (item q 0) x y) (fun m => m) m p r cascaded e a) \/
  (no_rule_at m p /\ length e = length a /\
   forall i x y, nth_error e i = Some x -> nth_error a i = Some y -> text_ok m (item p i) x y).
Definition query_ok (m : category) (E A : option query_map) : Prop :=
  (forall k e, params_of E k = Some e -> exists a, params_of A k = Some a /\ param_ok m k e a) /\
  (forall k a, params_of A k = Some a -> exists e, params_of E k = Some e).

(** ** Headers *)
(** The rules with their paths in lower case. *)
Definition lowered (m : category) : category := matchers (header_context w (mkCtx false m)).
(** A value of the header: by the rules at [$.name], else by those at [$.name[i]], else as text or structured value. *)
Definition header_value (m : category) (k : str) (i : nat) (x y : str) : Prop :=
  let p := join path_root (to_lower w k) in
  let holds r cascaded := xtext_satisfies w r cascaded (trim w x) (trim w y) in
  by_rules m p holds \/
  (no_rule_at m p /\ by_rules m (item p i) holds) \/
  (no_rule_at m p /\ no_rule_at m (item p i) /\ value_agrees (is_space w) (to_lower w) k x y).
(** A single value is compared with a single one. Otherwise the rule at [$.name] judges the list of values; without one, there are
    at least as many values as expected, and those that are not expected are compared with the empty text. *)
Definition header_values_ok (m : category) (k : str) (e a : list str) : Prop :=
  let p := join path_root (to_lower w k) in
  (exists x y, e = [x] /\ a = [y] /\ header_value m k 0 x y) \/
  (~ (length e = 1%nat /\ length a = 1%nat) /\ (e = [] -> a = []) /\
   (by_rules m p (fun r cascaded => list_rule (fun m _ x y => header_value m k 0 x y) lowered (lowered m) p r cascaded e a) \/
    (no_rule_at m p /\ (length e <= length a)%nat /\
     forall i y, nth_error a i = Some y -> header_value m k i (nth i e []) y))).
Definition headers_ok (m : category) (E A : SpecHeaders.header_map) : Prop :=
  forall k e, In (k, e) E -> exists a, has_header (to_lower w) A k a /\ header_values_ok m k e a.
End Params.

(** The variants of the rules carry body rules, as those read from a pact file do. *)
Definition body_variants (m : category) : Prop :=
  forall e vs, In e (cat_rules m) -> In (RArrayContains vs) (rl_rules (snd e)) -> Forall (fun v => cat_name (snd v) = CBody) vs.

(** ** Whole requests and responses *)
(** The path of a request: by the first rule list for it, by equality if there is none. *)
Definition path_ok (w : world) (m : category) (e a : str) : Prop :=
  (cat_rules m = [] /\ e = a) \/
  exists q rl rest, cat_rules m = (q, rl) :: rest /\ rl_rules rl <> [] /\
    combined (rl_logic rl) (rl_rules rl) (fun r => xtext_satisfies w r (rl_cascaded rl) e a).
(** No headers expected: anything goes. *)
Definition part_headers_ok (w : world) (m : category) (E A : option SpecHeaders.header_map) : Prop :=
  match E, A with
  | None, _ => True
  | Some E, None => E = []
  | Some E, Some A => headers_ok w m E A
  end.
(** A set of rules as it is read from a pact file: every category is in its place, and the variants carry body rules. *)
Definition rules_in_place (rs : matching_rules) : Prop :=
  forall n m, In (n, m) rs -> cat_name m = n /\ body_variants m.
(** The form fields with that name, in order. *)
Definition form_params (l : list (str * str)) (k : str) : option (list str) :=
  match map snd (filter (fun kv => str_eqb (fst kv) k) l) with [] => None | vs => Some vs end.
Definition form_ok (w : world) (m : category) (E A : list (str * str)) : Prop :=
  (forall k e, form_params E k = Some e -> exists a, form_params A k = Some a /\ param_ok w m k e a) /\
  (forall k a, form_params A k = Some a -> exists e, form_params E k = Some e).
