(** Model of rust/pact_matching/src/xml.rs: comparing XML bodies.

    The parser (crate sxd_document) is outside: a document is its root element. Of the other children of
    the document (comments, processing instructions) nothing is compared. *)
From Coq Require Import Ascii String List Arith NArith ZArith Lia Bool.
From Verif Require Import Base PathExp Json Text MatchingRules Matchers JsonCompare Headers Query ContentType Http.
Import ListNotations.
Open Scope N_scope.

(** sxd_document [QName]: namespace URI and local part. *)
Record qname := mkQ { q_uri : option str; q_local : str }.
Definition qname_eqb (a b : qname) : bool := opt_str_eqb (q_uri a) (q_uri b) && str_eqb (q_local a) (q_local b).
(** Elements, texts, and the rest ([ChildOfElement]: comments, processing instructions). *)
Inductive xml := XElem (q : qname) (attrs : list (qname * str)) (children : list xml) | XText (s : str) | XOther.
Definition is_element (n : xml) : bool := match n with XElem _ _ _ => true | _ => false end.

(** xml.rs:82-88 [name]. *)
Definition xname (q : qname) : str := match q_uri q with Some u => u ++ S_ ":" ++ q_local q | None => q_local q end.
Definition node_name (n : xml) : str := match n with XElem q _ _ => xname q | _ => [] end.

Section Xml.
Variable w : world.

(** xml.rs:90-143 [Matches<&Element> for &Element]: the two names, and the number of all children of the actual element, texts included. *)
Definition element_matches (e a : qname) (children : N) (r : rule) (cascaded : bool) : bool :=
  match r with
  | RRegex pat => regex_ok w pat (q_local a)
  | RType => qname_eqb e a
  | RMinType min => negb (negb cascaded && (children <? min))
  | RMaxType max => negb (negb cascaded && (max <? children))
  | RMinMaxType min max => if negb cascaded && (children <? min) then false else negb (negb cascaded && (max <? children))
  | REquality => qname_eqb e a
  | RNotEmpty => negb (children =? 0)
  | _ => false
  end.

(** lib.rs:555-559 [type_matcher_defined], mod.rs:1045-1047. *)
Definition ctx_type_matcher_defined (c : context) (p : docpath) : bool :=
  existsb (fun pr => rl_type_matcher_defined (snd pr)) (cat_rules (resolve_matchers_for_path (matchers c) (to_vec p))).

(** The rule at a path if there is one, or equality: compare_element, compare_text, compare_value. *)
Definition by_rule_or (c : context) (p : docpath) (sat : rule -> bool -> bool) : list mismatch_kind :=
  if ctx_matcher_is_defined c p then match_values sat (ctx_select_best c p)
  else if sat REquality false then [] else [KNotEqual].

(** xml.rs:372-396 [compare_value]. *)
Definition compare_value (c : context) (p : docpath) (e a : str) : list mismatch :=
  map (mkMM (path_expr p)) (by_rule_or c p (str_matches w e a)).
(** xml.rs:182-238 [compare_attributes]. *)
Definition attributes_of (l : list (qname * str)) : list (str * str) := obj_of_list (map (fun qv => (xname (fst qv), snd qv)) l).
Definition compare_attributes (c : context) (p : docpath) (e a : list (str * str)) : list mismatch :=
  if negb (nonempty e) && nonempty a && negb (allow c) then [mkMM (path_expr p) KEmptyMap]
  else
    (if allow c then if len a <? len e then [mkMM (path_expr p) KKeysDiffer] else []
     else if len e =? len a then [] else [mkMM (path_expr p) KKeysDiffer]) ++
    flat_map (fun kv =>
      let q := join p (S_ "@" ++ fst kv) in
      match obj_get (fst kv) a with
      | Some v => compare_value c q (snd kv) v
      | None => [mkMM (path_expr q) KAbsent]
      end) e.

(** xml.rs:342-370 [compare_text]: the texts directly below an element, each trimmed. *)
Definition element_text (children : list xml) : str :=
  flat_map (fun n => match n with XText s => trim w s | _ => [] end) children.
Definition compare_text (c : context) (path : docpath) (e a : list xml) : list mismatch :=
  let p := join path (S_ "#text") in
  let et := element_text e in
  let at_ := trim w (element_text a) in
  map (mkMM (path_expr p))
    (if ctx_matcher_is_defined c p then match_values (str_matches w (trim w et) at_) (ctx_select_best c p)
     else if str_matches w et at_ REquality false then [] else [KNotEqual]).

(** xml.rs:270-283: a BTreeMap from the names to the elements of the name, in order. *)
Definition group_by {A} (key : A -> str) (l : list A) : list (str * list A) :=
  fold_left (fun m a => obj_insert (key a) (match obj_get (key a) m with Some g => g ++ [a] | None => [a] end) m) l [].

(** An element of the actual document with the comparison of an expected one with it at a path. *)
Definition compared := (xml * (docpath -> xml -> list mismatch))%type.
(** xml.rs:295-318: [zip_longest]. *)
Fixpoint compare_pairs (c : context) (p : docpath) (es : list xml) (as_ : list compared) {struct es} : list mismatch :=
  match es with
  | [] => flat_map (fun _ => if allow c then [] else [mkMM (path_expr p) KUnexpected]) as_
  | e :: es' =>
      match as_ with
      | (_, cmp) :: as_' => cmp p e ++ compare_pairs c p es' as_'
      | [] => mkMM (path_expr p) KAbsent :: compare_pairs c p es' []
      end
  end.
(** xml.rs:252-340 [compare_children]; [es]: the expected child elements, [as_]: the actual ones. *)
Definition compare_children (c : context) (path : docpath) (es : list xml) (as_ : list compared) : list mismatch :=
  if negb (nonempty es) && nonempty as_ && negb (allow c) then [mkMM (path_expr path) KEmptyList]
  else
    let eg := group_by node_name es in
    let ag := group_by (fun x => node_name (fst x)) as_ in
    flat_map (fun kg =>
      let p := join path (fst kg) in
      match obj_get (fst kg) eg with
      | Some group =>
          if ctx_type_matcher_defined c p then
            flat_map (fun x => snd x p (match group with e :: _ => e | [] => XOther end)) (snd kg)
          else compare_pairs c p group (snd kg)
      | None => if negb (allow c) || ctx_type_matcher_defined c p then [mkMM (path_expr path) KUnexpected] else []
      end) ag ++
    flat_map (fun kg => if obj_has (fst kg) ag then [] else [mkMM (path_expr path) KAbsent]) eg.

(** xml.rs:145-180 [compare_element]. *)
Fixpoint compare_element (c : context) (p : docpath) (e a : xml) {struct a} : list mismatch :=
  match a with
  | XElem aq aa ach =>
      let cmps := map (fun n => (n, fun p e => compare_element c p e n)) ach in
      match e with
      | XElem eq ea ech =>
          match by_rule_or c p (element_matches eq aq (len ach)) with
          | [] => compare_attributes c p (attributes_of ea) (attributes_of aa) ++
                  compare_children c p (filter is_element ech) (filter (fun x => is_element (fst x)) cmps) ++
                  compare_text c p ech ach
          | ks => map (mkMM (path_expr p)) ks
          end
      | _ => []
      end
  | _ => []
  end.

(** xml.rs:23-80 [match_xml]; [parse]: the root element of a document ([parse_bytes] and the search for it). *)
Variable parse : list N -> option xml.
Definition match_xml (e a : body) (c : context) : list mismatch :=
  match e, a with
  | BMissing, _ | BEmpty, _ | BNull, _ => []
  | BPresent eb _ _, BPresent ab _ _ =>
      match parse eb, parse ab with
      | Some er, Some ar => compare_element c (join path_root (node_name er)) er ar
      | pe, pa => (match pe with None => [mkMM (S_ "$") KType] | _ => [] end) ++ (match pa with None => [mkMM (S_ "$") KType] | _ => [] end)
      end
  | _, _ => [mkMM (S_ "$") KAbsent]
  end.
End Xml.
