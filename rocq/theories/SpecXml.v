(** Specification of XML body matching: when an actual element fits an expected one. *)
From Coq Require Import Ascii String List Arith NArith ZArith Lia Bool Permutation.
From Verif Require Import Base PathExp SpecPath Json Text MatchingRules SpecRules Matchers JsonCompare SpecMatch SpecValues SpecBody Xml.
Import ListNotations.
Open Scope N_scope.

(** The elements of one name (with its namespace) among some nodes, in their order. *)
Definition named (n : str) (l : list xml) : list xml :=
  filter (fun x => match x with XElem q _ _ => str_eqb (xname q) n | _ => false end) l.
(** An attribute; should there be several of one name (the parser refuses that), the last. *)
Inductive attribute (n : str) : list (qname * str) -> str -> Prop :=
| at_here : forall q v l, xname q = n -> (forall q' v', In (q', v') l -> xname q' <> n) -> attribute n ((q, v) :: l) v
| at_later : forall q v l u, attribute n l u -> attribute n ((q, v) :: l) u.
(** The text directly in an element: the pieces without the white space around them, one after the other. *)
Definition text_in (w : world) (l : list xml) : str :=
  concat (map (fun n => match n with XText s => trim w s | _ => [] end) l).

(** What a rule asks of a text (an attribute's value or the text in an element), and of an element. *)
Definition xtext_satisfies (w : world) (r : rule) (cascaded : bool) (e a : str) : Prop :=
  match r with
  | RValues => e = a
  | RContentType t => content_type_ok w a t = true
  | RArrayContains _ => False
  | REachKey _ | REachValue _ => cascaded = true
  | _ => text_satisfies w r e a
  end.
(** [nodes]: the number of child nodes of the actual element: elements, pieces of text and comments. *)
Definition element_satisfies (w : world) (r : rule) (cascaded : bool) (e a : qname) (nodes : N) : Prop :=
  match r with
  | RType | REquality => e = a
  | RRegex pat => regex_match w pat (q_local a) = Some true
  | RMinType _ | RMaxType _ | RMinMaxType _ _ => cascaded = false -> size_allowed r nodes
  | RNotEmpty => 0 < nodes
  | _ => False
  end.

(** By the rules in force at a location, by equality if there is none. *)
Definition governed (m : category) (p : docpath) (holds : rule -> bool -> Prop) : Prop :=
  (no_rule_at m p /\ holds REquality false) \/
  (exists rl, in_force m p rl /\ rl_rules rl <> [] /\ combined (rl_logic rl) (rl_rules rl) (fun r => holds r (rl_cascaded rl))).
(** Some rule that applies to the location, however general, is a type rule. *)
Definition type_rule_at (m : category) (p : docpath) : Prop :=
  exists e r, In e (cat_rules m) /\ candidate (to_vec p) (fst e) /\ In r (rl_rules (snd e)) /\ type_rule r.

Section Fits.
Variable w : world.
Variable c : context.
Inductive fits : docpath -> xml -> xml -> Prop :=
| fits_element : forall p eq ea ech aq aa ach,
    governed (matchers c) p (fun r cascaded => element_satisfies w r cascaded eq aq (len ach)) ->
    (forall n v, attribute n ea v -> exists v', attribute n aa v' /\
       governed (matchers c) (join p (S_ "@" ++ n)) (fun r cascaded => xtext_satisfies w r cascaded v v')) ->
    (allow c = false -> forall n v, attribute n aa v -> exists v', attribute n ea v') ->
    (forall n, group_fits (join p n) (named n ech) (named n ach)) ->
    governed (matchers c) (join p (S_ "#text")) (fun r cascaded => xtext_satisfies w r cascaded (text_in w ech) (text_in w ach)) ->
    fits p (XElem eq ea ech) (XElem aq aa ach)
(** The expected and the actual children of one name. *)
with group_fits : docpath -> list xml -> list xml -> Prop :=
| gf_none : forall p, group_fits p [] []
| gf_unexpected : forall p a, allow c = true -> ~ type_rule_at (matchers c) p -> group_fits p [] a
| gf_all_like_first : forall p e es a, type_rule_at (matchers c) p -> a <> [] ->
    (forall x, In x a -> fits p e x) -> group_fits p (e :: es) a
| gf_one_by_one : forall p es a, es <> [] -> ~ type_rule_at (matchers c) p ->
    (length es <= length a)%nat -> (allow c = false -> length a = length es) ->
    (forall i x y, nth_error es i = Some x -> nth_error a i = Some y -> fits p x y) -> group_fits p es a.
End Fits.

(** Without rules: the same names, attributes and texts, the children of each name in the same order; more attributes and children only if [extra]. *)
Section Alike.
Variable w : world.
Inductive alike (extra : bool) : xml -> xml -> Prop :=
| al_element : forall q ea ech aa ach,
    (forall n v, attribute n ea v -> attribute n aa v) ->
    (extra = false -> forall n v, attribute n aa v -> exists v', attribute n ea v') ->
    (forall n, exists l rest, named n ach = l ++ rest /\ Forall2 (alike extra) (named n ech) l /\ (extra = false -> rest = [])) ->
    text_in w ech = text_in w ach ->
    alike extra (XElem q ea ech) (XElem q aa ach).
End Alike.
