(** Specification of JSON body matching under any set of matching rules: when an
    actual document conforms to an expected one. *)
From Coq Require Import Ascii String List Arith NArith ZArith Lia Bool Permutation.
From Verif Require Import Base PathExp SpecPath Json MatchingRules SpecRules Matchers JsonCompare SpecMatch SpecValues.
Import ListNotations.
Open Scope N_scope.

(** * Which rules apply at a location *)
(** The rule list in force at a location: of the rule paths that match it, the one of the
    greatest rank; of several of the same rank the last one in the order of the rule map. *)
Definition in_force (m : category) (p : docpath) (rl : rulelist) : Prop :=
  exists before e after, cat_rules m = before ++ e :: after /\ candidate (to_vec p) (fst e) /\
    (forall e', In e' before -> candidate (to_vec p) (fst e') -> rank (fst e') <= rank (fst e)) /\
    (forall e', In e' after -> candidate (to_vec p) (fst e') -> rank (fst e') < rank (fst e)) /\
    rl = applied (to_vec p) e.
Definition no_rule_at (m : category) (p : docpath) : Prop :=
  forall e, In e (cat_rules m) -> ~ candidate (to_vec p) (fst e).
(** A rule path written for the location itself (not for one above it). *)
Definition exactly_for (p q : docpath) : Prop :=
  candidate (to_vec p) q /\ length (path_tokens q) = length (path_tokens p).
(** The first rule list written for the location itself, in the order of the rule map. *)
Definition first_written (m : category) (p : docpath) (rl : rulelist) : Prop :=
  exists before q after, cat_rules m = before ++ (q, rl) :: after /\ exactly_for p q /\
    forall e', In e' before -> ~ exactly_for p (fst e').

(** * What a rule asks of one value, an array and an object *)
Definition scalar_satisfies (w : world) (r : rule) (e a : json) : Prop :=
  match r with
  | RType | RMinType _ | RMaxType _ | RMinMaxType _ _ => type_of e = type_of a
  | REquality | RValues => same_scalar e a
  | RContentType t => json_content_type_ok w a t = true
  | RArrayContains _ | RStatusCode _ | REachKey _ | REachValue _ => True
  | _ => json_satisfies w r a
  end.
(** The size bounds count at the location they are written for, not below it. *)
Definition array_satisfies (r : rule) (cascaded : bool) (e a : list json) : Prop :=
  match r with
  | RMinType _ | RMaxType _ | RMinMaxType _ _ => cascaded = false -> size_allowed r (len a)
  | REquality => json_eqb (JArr e) (JArr a) = true
  | RNotEmpty => a <> []
  | RNull | RStatusCode _ => False
  | _ => True
  end.
Definition object_satisfies (r : rule) (cascaded : bool) (e a : list (str * json)) : Prop :=
  match r with
  | RMinType _ | RMaxType _ | RMinMaxType _ _ => cascaded = false -> size_allowed r (len a)
  | REquality => json_eqb (JObj e) (JObj a) = true
  | RNotEmpty => a <> []
  | RRegex _ | RType | RArrayContains _ | REachKey _ | REachValue _ | RValues => True
  | _ => False
  end.
(** The rules of an each-value definition, written for every entry below [p]. *)
Definition for_each_entry (p : docpath) (d : definition) (m : category) : Prop :=
  exists rs, m = mkCat CBody [(join p (S_ "*"), mkRules rs And false)] /\ map inl rs = def_rules d.
(** The keys of an object: equal to the expected ones, or at least these if unexpected ones
    are allowed, unless a rule about entries (values, each-value, each-key) is written here; and
    they satisfy the each-key rules in force if any rule is written here. *)
Definition keys_ok (w : world) (c : context) (p : docpath) (e a : list str) : Prop :=
  ((exists rl r, first_written (matchers c) p rl /\ In r (rl_rules rl) /\ entry_rule r = true) \/
   if allow c then forall k, In k e -> In k a else e = a) /\
  (forall x rl d, In x (cat_rules (matchers c)) -> exactly_for p (fst x) ->
     in_force (matchers c) p rl -> In (REachKey d) (rl_rules rl) ->
     forall i, In i (def_rules d) -> exists r, i = inl r /\ forall k, In k a -> str_matches w [] k r false = true).
Definition expected_entry (e : list (str * json)) (k : str) (x : json) : Prop :=
  obj_get k e = Some x \/ (obj_get k e = None /\ exists k0 rest, e = (k0, x) :: rest).
Definition about_values (r : rule) : Prop := match r with RValues | REachValue _ => True | _ => False end.
(** The variants of an array-contains rule; without any, each expected element by equality. *)
Definition variant_of (e : list json) (vs : list (N * category)) (i : N) (rules : category) : Prop :=
  match vs with
  | [] => i < len e /\ rules = mkCat CBody [(path_empty, mkRules [REquality] And false)]
  | _ => In (i, rules) vs
  end.

(** * Conforming documents *)
Section Conforms.
Variable w : world.

Inductive conforms : context -> docpath -> json -> json -> Prop :=
| cf_scalar : forall c p e a, is_scalar e -> no_rule_at (matchers c) p -> same_scalar e a -> conforms c p e a
| cf_scalar_rules : forall c p e a rl, is_scalar e -> in_force (matchers c) p rl -> rl_rules rl <> [] ->
    combined (rl_logic rl) (rl_rules rl) (fun r => scalar_satisfies w r e a) -> conforms c p e a
| cf_object : forall c p e a, no_rule_at (matchers c) p ->
    keys_ok w c p (keys e) (keys a) ->
    (forall k x y, In (k, x) e -> obj_get k a = Some y -> conforms c (join p k) x y) ->
    conforms c p (JObj e) (JObj a)
| cf_object_rules : forall c p e a rl, in_force (matchers c) p rl ->
    (e = [] -> allow c = false -> a = []) ->
    (forall r, In r (rl_rules rl) -> object_rule c p (rl_cascaded rl) r e a) (* whatever the AND/OR *) ->
    conforms c p (JObj e) (JObj a)
| cf_array : forall c p e a, no_rule_at (matchers c) p -> length e = length a ->
    (forall i x y, nth_error e i = Some x -> nth_error a i = Some y -> conforms c (join p (show_N (N.of_nat i))) x y) ->
    conforms c p (JArr e) (JArr a)
| cf_array_and : forall c p e a rl, in_force (matchers c) p rl -> rl_rules rl <> [] -> rl_logic rl = And ->
    (forall r, In r (rl_rules rl) -> array_rule c p (rl_cascaded rl) r e a) -> conforms c p (JArr e) (JArr a)
| cf_array_or : forall c p e a rl r, in_force (matchers c) p rl -> rl_logic rl = Or ->
    In r (rl_rules rl) -> array_rule c p (rl_cascaded rl) r e a -> conforms c p (JArr e) (JArr a)

(** One rule applied to an object. *)
with object_rule : context -> docpath -> bool -> rule -> list (str * json) -> list (str * json) -> Prop :=
| or_values : forall c p e a,
    (forall k x y, In (k, y) a -> expected_entry e k x -> conforms c (join p k) x y) ->
    object_rule c p false RValues e a
| or_each_value : forall c p d m e a, for_each_entry p d m ->
    (forall k x y, In (k, y) a -> expected_entry e k x -> conforms (mkCtx (allow c) m) (join p k) x y) ->
    object_rule c p false (REachValue d) e a
| or_other : forall c p cascaded r e a, cascaded = true \/ ~ about_values r ->
    object_satisfies r cascaded e a -> keys_ok w c p (keys e) (keys a) ->
    (forall k x y, In (k, x) e -> obj_get k a = Some y -> conforms c (join p k) x y) ->
    object_rule c p cascaded r e a

(** One rule applied to an array. An element is compared with the expected one at its
    position, or with the first; a missing one needs a rule at its position. *)
with array_rule : context -> docpath -> bool -> rule -> list json -> list json -> Prop :=
| ar_empty : forall c p cascaded r a, array_rule c p cascaded r [] a
| ar_contains : forall c p cascaded vs e a,
    (forall i rules, variant_of e vs i rules -> exists x y, nth_error e (N.to_nat i) = Some x /\ In y a /\
       conforms (mkCtx (allow c) rules) path_root x y) ->
    array_rule c p cascaded (RArrayContains vs) e a
| ar_each_value_below : forall c p d e a, array_rule c p true (REachValue d) e a
| ar_each_value : forall c p d m e a, for_each_entry p d m ->
    (forall i x y, nth_or_first e i = Some x -> nth_error a i = Some y ->
       conforms (mkCtx (allow c) m) (join p (show_N (N.of_nat i))) x y) ->
    (forall i, (length a <= i < length e)%nat -> ~ no_rule_at m (join p (show_N (N.of_nat i)))) ->
    array_rule c p false (REachValue d) e a
| ar_other : forall c p cascaded r e a,
    (forall vs, r <> RArrayContains vs) -> (forall d, r <> REachValue d) ->
    array_satisfies r cascaded e a ->
    (forall i x y, nth_or_first e i = Some x -> nth_error a i = Some y ->
       conforms c (join p (show_N (N.of_nat i))) x y) ->
    (forall i, (length a <= i < length e)%nat -> ~ no_rule_at (matchers c) (join p (show_N (N.of_nat i)))) ->
    array_rule c p cascaded r e a.
End Conforms.

(** The rule sets of a body: the category is the body one, also inside array-contains variants. *)
Definition body_here (r : rule) : Prop :=
  match r with RArrayContains vs => Forall (fun v => cat_name (snd v) = CBody) vs | _ => True end.
Definition body_rules (m : category) : Prop :=
  cat_name m = CBody /\
  forall e r, In e (cat_rules m) -> In r (rl_rules (snd e)) -> rule_all body_here r.
