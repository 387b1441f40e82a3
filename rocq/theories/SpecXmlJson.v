(** Specification of XML bodies described by JSON. *)
From Coq Require Import Ascii String List Arith NArith ZArith Lia Bool.
From Verif Require Import Base PathExp Json Text MatchingRules Expr Generators RuleExpr SpecIntegration XmlJson.
Import ListNotations.
Open Scope N_scope.

(** Rules and generators given for a path. *)
Record given := mkGiven { g_path : docpath; g_rules : list xrule; g_gens : list generator }.
Definition rules_given (l : list given) (p : docpath) : list xrule := flat_map (fun g => if path_eqb p (g_path g) then g_rules g else []) l.
Definition gens_given (l : list given) (p : docpath) : list generator := flat_map (fun g => if path_eqb p (g_path g) then g_gens g else []) l.
Definition rules_after (l : list given) (old new : category_ xrule) : Prop :=
  cat_name new = cat_name old /\
  forall p, hm_get p (cat_rules new) =
    match hm_get p (cat_rules old), rules_given l p with
    | Some rl, rs => Some (mkRules (rl_rules rl ++ rs) (rl_logic rl) (rl_cascaded rl))
    | None, [] => None
    | None, rs => Some (mkRules rs And false)
    end.
Definition gens_after (l : list given) (old new : docpath -> option generator) : Prop :=
  forall p, new p = last_of (gens_given l p) (old p).

(** An element again without its texts: the later copies of an element. *)
Inductive textless : xtree -> xtree -> Prop :=
| tl_element : forall n a cs cs', textless_all cs cs' -> textless (XElem n a cs) (XElem n a cs')
with textless_all : list xtree -> list xtree -> Prop :=
| tl_end : textless_all [] []
| tl_text : forall s cs cs', textless_all cs cs' -> textless_all (XText s :: cs) cs'
| tl_child : forall c c' cs cs', textless c c' -> textless_all cs cs' -> textless_all (c :: cs) (c' :: cs').
(** An element appended [n] times. *)
Inductive repeated : N -> xtree -> list xtree -> Prop :=
| rp_none : forall t, repeated 0 t []
| rp_some : forall n t t' l, textless t t' -> length l = N.to_nat n -> Forall (eq t') l -> repeated (n + 1) t (t :: l).

Section Described.
Variable w : world.
Variable junk : str -> nat.
(** The path a text stands for; the root if it cannot be read. *)
Inductive place : str -> docpath -> Prop :=
| pl_read : forall s p, path_new (uni_alpha w) (uni_numeric w) s = Ok p -> place s p
| pl_root : forall s e, path_new (uni_alpha w) (uni_numeric w) s = Err e -> place s path_root.
(** What a matcher object gives: nothing if it cannot be read. *)
Inductive matcher_gives (m : list (str * json)) : list xrule -> list generator -> Prop :=
| mg_says : forall rules g, In (S_ "pact:matcher:type") (keys m) -> says w junk m rules g -> matcher_gives m rules (optional g)
| mg_wrong : In (S_ "pact:matcher:type") (keys m) -> (forall rules g, ~ says w junk m rules g) -> matcher_gives m [] []
| mg_none : ~ In (S_ "pact:matcher:type") (keys m) -> matcher_gives m [] [].
(** The generator named by [holder] with the attributes of [m]. *)
Definition generator_named (holder m : list (str * json)) : list generator :=
  match obj_get (S_ "pact:generator:type") holder with
  | Some t => match gen_from_map w (json_to_string w t) m with Some g => [g] | None => [] end
  | None => []
  end.
Definition names (path : list str) : str := join_with (S_ ".") (S_ "$" :: path).

(** Attributes: a matcher object stands for its value. *)
Inductive attributes_described (path : list str) : list (str * json) -> list (str * str) -> list given -> Prop :=
| ad_end : attributes_described path [] [] []
| ad_plain : forall k v m l gs, (forall o, v = JObj o -> ~ In (S_ "pact:matcher:type") (keys o)) -> attributes_described path m l gs ->
    attributes_described path ((k, v) :: m) ((k, json_to_string w v) :: l) gs
| ad_matcher : forall k o value p rules gens m l gs, In (S_ "pact:matcher:type") (keys o) -> obj_get (S_ "value") o = Some value ->
    place (names path ++ S_ "['@" ++ k ++ S_ "']") p -> matcher_gives o rules gens -> attributes_described path m l gs ->
    attributes_described path ((k, JObj o) :: m) ((k, json_to_string w value) :: l) (mkGiven p rules (gens ++ generator_named o o) :: gs).
Definition attributes_of_object (path : list str) (o : list (str * json)) (l : list (str * str)) (gs : list given) : Prop :=
  match obj_get (S_ "attributes") o with
  | Some (JObj m) => attributes_described path m l gs
  | _ => l = [] /\ gs = []
  end.

(** How often an element is wanted: once if [examples] is not a number. *)
Inductive examples : list (str * json) -> N -> Prop :=
| ex_number : forall o n, obj_get (S_ "examples") o = Some (JNum (PosInt n)) -> examples o n
| ex_once : forall o, (forall n, obj_get (S_ "examples") o <> Some (JNum n)) -> examples o 1.

(** [described path o t gs]: the object [o] below the elements [path] stands for the node [t] and gives [gs]. *)
Inductive described : list str -> list (str * json) -> xtree -> list given -> Prop :=
| de_matcher : forall path o value n p rules gens t gs, In (S_ "pact:matcher:type") (keys o) ->
    obj_get (S_ "value") o = Some (JObj value) -> obj_get (S_ "name") value = Some n ->
    place (names (path ++ [json_to_string w n])) p -> matcher_gives o rules gens ->
    element (path ++ [json_to_string w n]) (json_to_string w n) value t gs ->
    described path o t (mkGiven p rules (gens ++ generator_named o o) :: gs)
| de_text : forall path o content, ~ In (S_ "pact:matcher:type") (keys o) -> obj_get (S_ "content") o = Some content ->
    obj_get (S_ "matcher") o = None -> described path o (XText (json_to_string w content)) []
(** a matcher that is no object gives nothing *)
| de_text_odd : forall path o content v p, ~ In (S_ "pact:matcher:type") (keys o) -> obj_get (S_ "content") o = Some content ->
    obj_get (S_ "matcher") o = Some v -> (forall m, v <> JObj m) -> place (names (path ++ [S_ "#text"])) p ->
    described path o (XText (json_to_string w content)) []
| de_text_matcher : forall path o content m p rules gens, ~ In (S_ "pact:matcher:type") (keys o) -> obj_get (S_ "content") o = Some content ->
    obj_get (S_ "matcher") o = Some (JObj m) -> place (names (path ++ [S_ "#text"])) p -> matcher_gives m rules gens ->
    described path o (XText (json_to_string w content)) [mkGiven p rules (gens ++ generator_named o m)]
| de_element : forall path o n t gs, ~ In (S_ "pact:matcher:type") (keys o) -> obj_get (S_ "content") o = None -> obj_get (S_ "name") o = Some n ->
    element (path ++ [json_to_string w n]) (json_to_string w n) o t gs -> described path o t gs
(** An element with the attributes and children an object lists. *)
with element : list str -> str -> list (str * json) -> xtree -> list given -> Prop :=
| el_made : forall path name o ats ga l cs gc, attributes_of_object path o ats ga ->
    (obj_get (S_ "children") o = Some (JArr l) \/ obj_get (S_ "children") o = None /\ l = []) -> children_described path l cs gc ->
    element path name o (XElem name ats cs) (ga ++ gc)
(** The children: a text once, an element as often as [examples] says . *)
with children_described : list str -> list json -> list xtree -> list given -> Prop :=
| cd_end : forall path, children_described path [] [] []
| cd_text : forall path o s g l cs gs, described path o (XText s) g -> (exists n, examples o n) -> children_described path l cs gs ->
    children_described path (JObj o :: l) (XText s :: cs) (g ++ gs)
| cd_element : forall path o t n ts g l cs gs, described path o t g -> (forall s, t <> XText s) -> examples o n -> repeated n t ts ->
    children_described path l cs gs -> children_described path (JObj o :: l) (ts ++ cs) (g ++ gs).
(** The body: the root element, if the object [root] describes one. *)
Inductive body_described : list (str * json) -> option xtree -> list given -> Prop :=
| bd_root : forall m o t gs, obj_get (S_ "root") m = Some (JObj o) -> described [] o t gs -> (forall s, t <> XText s) -> body_described m (Some t) gs
| bd_text : forall m o s gs, obj_get (S_ "root") m = Some (JObj o) -> described [] o (XText s) gs -> body_described m None gs
| bd_none : forall m, (forall o, obj_get (S_ "root") m <> Some (JObj o)) -> body_described m None [].
End Described.
