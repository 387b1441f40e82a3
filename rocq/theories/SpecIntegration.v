(** Specification of the JSON of language integrations: what a document with
    matching rules and generators written into it stands for. *)
From Coq Require Import String List NArith Bool.
From Verif Require Import Base PathExp Json MatchingRules Expr Generators RuleExpr.
Import ListNotations.
Open Scope N_scope.

(** ** Where rules apply *)
(** A way down a document: by key or position, or to every field or element. *)
Inductive way := Key (k : str) | AnyKey | Elem (i : N) | AnyElem.
Definition route := list way.
(** The path expression of a route from a base, built with the public operations on paths. *)
Definition extend (p : docpath) (s : way) : docpath :=
  match s with
  | Key k => join p k
  | AnyKey => push_star p
  | Elem i => push_index p i
  | AnyElem => push_star_index p
  end.
Definition path_of (base : docpath) (r : route) : docpath := fold_left extend r base.

(** ** What one matcher object says *)
Section Says.
Variable w : world.
Variable junk : str -> nat.

(** A rule created from its name and its attributes ([MatchingRule::create], see C10 and C43). *)
Definition made (ty : str) (attributes : list (str * json)) (r : xrule) : Prop :=
  exists a, rule_create w (rj_for w (JObj attributes)) ty attributes = Ok a /\ r = XRule a.
(** Texts that are read as matching rule definitions (C74). *)
Definition is_expression (text : str) : Prop :=
  is_matcher_def junk text = true /\ text <> S_ "eachKey" /\ text <> S_ "eachValue" /\ text <> S_ "notEmpty".
Definition reference_resolved (m : list (str * json)) (i : xrule + str) (r : xrule) : Prop :=
  match i with
  | inl a => r = a
  | inr name => In name (keys m) /\ r = XRule RType
  end.

Inductive says (m : list (str * json)) : list xrule -> option generator -> Prop :=
| says_list elements rules :
    obj_get (S_ "pact:matcher:type") m = Some (JArr elements) ->
    Forall2 (fun e r => exists a t, e = JObj a /\ obj_get (S_ "pact:matcher:type") a = Some t /\ made (json_to_string w t) a r)
            elements rules ->
    says m rules None
| says_expression t d rules :
    obj_get (S_ "pact:matcher:type") m = Some t -> (forall l, t <> JArr l) ->
    is_expression (json_to_string w t) ->
    parse_matcher_def junk w (json_to_string w t) = Some d ->
    Forall2 (reference_resolved m) (x_rules d) rules ->
    says m rules (x_gen d)
| says_name t r :
    obj_get (S_ "pact:matcher:type") m = Some t -> (forall l, t <> JArr l) ->
    ~ is_expression (json_to_string w t) ->
    made (json_to_string w t) m r ->
    says m [r] None.

(** The generator written next to the matcher. *)
Definition own_generator (m : list (str * json)) : list generator :=
  match obj_get (S_ "pact:generator:type") m with
  | Some t => match gen_from_map w (json_to_string w t) m with Some g => [g] | None => [] end
  | None => []
  end.
Definition optional (g : option generator) : list generator := match g with Some x => [x] | None => [] end.

(** Array-contains matchers are given by this name as a text. *)
Definition contains_matcher (m : list (str * json)) : Prop :=
  obj_get (S_ "pact:matcher:type") m = Some (JStr (S_ "arrayContains")) \/
  obj_get (S_ "pact:matcher:type") m = Some (JStr (S_ "array-contains")).

(** Rules that look at the values of a map, whatever their keys. *)
Definition about_values (r : xrule) : Prop := r = XRule RValues \/ (exists d, r = XRule (REachValue d)) \/ (exists d, r = XEachValue d).

Definition pact_key (k : str) : Prop := exists rest, k = S_ "pact:" ++ rest.

(** ** What a document says *)
(** One matcher of the document: where it applies, its rules and generators, and the example value it stands for. *)
Record occurrence := mkOcc { o_route : route; o_rules : list xrule; o_gens : list generator; o_value : json }.

(** All the rules and the generators given for a path, when the document stands at [base]. *)
Definition rules_for (base : docpath) (occs : list occurrence) (p : docpath) : list xrule :=
  flat_map (fun o => if path_eqb p (path_of base (o_route o)) then o_rules o else []) occs.
Definition gens_for (base : docpath) (occs : list occurrence) (p : docpath) : list generator :=
  flat_map (fun o => if path_eqb p (path_of base (o_route o)) then o_gens o else []) occs.
Fixpoint last_of {A} (l : list A) (old : option A) : option A :=
  match l with
  | [] => old
  | x :: l' => last_of l' (Some x)
  end.

(** A category after the rules of [occs] were added: the rules of a path go after those it had. *)
Definition rules_added (base : docpath) (occs : list occurrence) (old new : category_ xrule) : Prop :=
  cat_name new = cat_name old /\
  forall p, hm_get p (cat_rules new) =
    match hm_get p (cat_rules old), rules_for base occs p with
    | Some rl, rs => Some (mkRules (rl_rules rl ++ rs) (rl_logic rl) (rl_cascaded rl))
    | None, [] => None
    | None, rs => Some (mkRules rs And false)
    end.
(** The last generator of a path is the one that stays. *)
Definition gens_added (base : docpath) (occs : list occurrence) (old new : docpath -> option generator) : Prop :=
  forall p, new p = last_of (gens_for base occs p) (old p).
(** A map holds every path once. *)
Definition distinct {A} (m : list (docpath * A)) : Prop := NoDup (map (fun e => path_expr (fst e)) m).

(** How the parts of a value are addressed: its fields by [AnyKey], its elements by
    [AnyElem], and the fields of objects in its elements by [AnyKey]. *)
Record mode := mkMode { any_keys : bool; any_elems : bool; elems_any_keys : bool }.
Definition exactly : mode := mkMode false false false.

(** [reading md r v v' occs]: in a value [v] at [r], addressed as in [md], the example
    value is [v'] and the matchers are [occs], those inside a matcher before it. *)
Inductive reading : mode -> route -> json -> json -> list occurrence -> Prop :=
| rd_other md r v : (forall m, v <> JObj m) -> (forall l, v <> JArr l) -> reading md r v v []
| rd_array md r l l' occs : reading_items md r 0 l l' occs -> reading md r (JArr l) (JArr l') occs
| rd_object md r m m' occs :
    ~ In (S_ "pact:matcher:type") (keys m) ->
    reading_entries md r m m' occs ->
    reading md r (JObj m) (JObj m') occs
(** a matcher: its value, the parts of which are addressed by wildcards *)
| rd_matcher md r m rules g inner v' occs values :
    ~ contains_matcher m -> says m rules g ->
    obj_get (S_ "value") m = Some inner ->
    (values = true <-> Exists about_values rules) ->
    reading (mkMode values true (any_keys md)) r inner v' occs ->
    reading md r (JObj m) v' (occs ++ [mkOcc r rules (optional g ++ own_generator m) v'])
| rd_matcher_alone md r m rules g :
    ~ contains_matcher m -> says m rules g ->
    obj_get (S_ "value") m = None ->
    reading md r (JObj m) JNull [mkOcc r rules (optional g ++ own_generator m) JNull]
(** an array-contains matcher: every variant is a document of its own *)
| rd_contains md r m variants variants' l' :
    contains_matcher m ->
    obj_get (S_ "variants") m = Some (JArr variants) ->
    reading_variants 0 variants l' variants' ->
    reading md r (JObj m) (JArr l') [mkOcc r [XContains variants'] (own_generator m) (JArr l')]
(** a matcher that cannot be read *)
| rd_wrong md r m :
    In (S_ "pact:matcher:type") (keys m) ->
    (contains_matcher m -> forall l, obj_get (S_ "variants") m <> Some (JArr l)) ->
    (~ contains_matcher m -> forall rules g, ~ says m rules g) ->
    reading md r (JObj m) JNull [mkOcc r [] (own_generator m) JNull]
with reading_items : mode -> route -> N -> list json -> list json -> list occurrence -> Prop :=
| ri_nil md r i : reading_items md r i [] [] []
| ri_cons md r i x l x' l' occs occs' :
    reading (mkMode (elems_any_keys md) false (elems_any_keys md)) (r ++ [if any_elems md then AnyElem else Elem i]) x x' occs ->
    reading_items md r (i + 1) l l' occs' ->
    reading_items md r i (x :: l) (x' :: l') (occs ++ occs')
with reading_entries : mode -> route -> list (str * json) -> list (str * json) -> list occurrence -> Prop :=
| re_nil md r : reading_entries md r [] [] []
| re_skip md r k x m m' occs :
    pact_key k -> reading_entries md r m m' occs ->
    reading_entries md r ((k, x) :: m) m' occs
| re_cons md r k x m x' m' occs occs' :
    ~ pact_key k ->
    reading exactly (r ++ [if any_keys md then AnyKey else Key k]) x x' occs ->
    reading_entries md r m m' occs' ->
    reading_entries md r ((k, x) :: m) ((k, x') :: m') (occs ++ occs')
with reading_variants : N -> list json -> list json -> list (N * category_ xrule * gen_map) -> Prop :=
| rv_nil i : reading_variants i [] [] []
| rv_cons i x l x' l' occs c gens vs :
    reading exactly [] x x' occs ->
    rules_added path_root occs (mkCat CBody []) c -> distinct (cat_rules c) ->
    gens_added path_root occs (fun _ => None) (fun p => hm_get p gens) -> distinct gens ->
    reading_variants (i + 1) l l' vs ->
    reading_variants i (x :: l) (x' :: l') ((i, c, gens) :: vs).
End Says.

Scheme reading_rel := Minimality for reading Sort Prop
  with reading_items_rel := Minimality for reading_items Sort Prop
  with reading_entries_rel := Minimality for reading_entries Sort Prop
  with reading_variants_rel := Minimality for reading_variants Sort Prop.
Combined Scheme reading_all from reading_rel, reading_items_rel, reading_entries_rel, reading_variants_rel.

(** The kind of generators for a category of rules. *)
Definition generators_of_kind (n : category_name) : gcat :=
  match n with
  | CHeader => GcHeader | CQuery => GcQuery | CPath => GcPath | CStatus => GcStatus | CMetadata => GcMetadata
  | CBody | CMethod | CContents => GcBody
  end.
(** The generators of a kind as a map from paths. *)
Definition generator_at (c : gcat) (g : generators) (p : docpath) : option generator :=
  match cats_get c g with Some m => hm_get p m | None => None end.

(** ** Properties of documents *)
(** No key at any depth starts with "pact:". *)
Inductive unmarked : json -> Prop :=
| um_other v : (forall m, v <> JObj m) -> (forall l, v <> JArr l) -> unmarked v
| um_arr l : Forall unmarked l -> unmarked (JArr l)
| um_obj m : Forall (fun kv => ~ pact_key (fst kv) /\ unmarked (snd kv)) m -> unmarked (JObj m).

(** [down r v loc x]: going from [v] along [r] by way of the keys and positions [loc] leads to [x]. *)
Inductive down : route -> json -> list str -> json -> Prop :=
| down_here v : down [] v [] v
| down_key k m y r loc x : In (k, y) m -> down r y loc x -> down (Key k :: r) (JObj m) (k :: loc) x
| down_any_key k m y r loc x : In (k, y) m -> down r y loc x -> down (AnyKey :: r) (JObj m) (k :: loc) x
| down_elem i l y r loc x : nth_error l (N.to_nat i) = Some y -> down r y loc x ->
    down (Elem i :: r) (JArr l) (show_N i :: loc) x
| down_any_elem i l y r loc x : nth_error l (N.to_nat i) = Some y -> down r y loc x ->
    down (AnyElem :: r) (JArr l) (show_N i :: loc) x.

(** Arrays of a machine: positions are 64 bit numbers. *)
Inductive fits : json -> Prop :=
| fits_other v : (forall m, v <> JObj m) -> (forall l, v <> JArr l) -> fits v
| fits_arr l : N.of_nat (length l) <= 2 ^ 64 -> Forall fits l -> fits (JArr l)
| fits_obj m : Forall (fun kv => fits (snd kv)) m -> fits (JObj m).

(** [x] is a part of [v], at any depth. *)
Inductive within (x : json) : json -> Prop :=
| within_here : within x x
| within_elem y l : In y l -> within x y -> within x (JArr l)
| within_field k y m : In (k, y) m -> within x y -> within x (JObj m).
