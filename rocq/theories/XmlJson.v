(** Model of rust/pact_ffi/src/mock_server/xml.rs (XML bodies described by JSON with matching rules and generators) and of its
    caller handles.rs:1092-1101 [process_xml].

    The document is the tree that sxd_document holds; printing it ([format_document]) is not modelled. Appending a text node that
    already has a parent takes it away from there (sxd_document). Logging and the namespaces argument (not used) are left out. *)
From Coq Require Import Ascii String List Arith NArith ZArith Lia Bool.
From Verif Require Import Base PathExp Json Text MatchingRules Expr Generators RuleExpr Integration.
Import ListNotations.
Open Scope N_scope.

Inductive xtree := XElem (name : str) (attributes : list (str * str)) (children : list xtree) | XText (text : str).
(** What is left of an element after its texts were moved away. *)
Fixpoint without_texts (t : xtree) : xtree :=
  match t with
  | XElem n a cs => XElem n a (flat_map (fun c => match c with XElem _ _ _ => [without_texts c] | XText _ => [] end) cs)
  | XText s => XText s
  end.
(** xml.rs:260-274 [duplicate_element]: the copy, and what is left of the element. *)
Definition duplicate (t : xtree) : xtree * xtree := (t, without_texts t).
(** 200-203: [examples] copies. *)
Fixpoint copies (n : nat) (t : xtree) : list xtree :=
  match n with
  | O => []
  | S k => let (c, rest) := duplicate t in c :: copies k rest
  end.

Section XmlJson.
Variable w : world.
Variable junk : str -> nat.

Definition dotted (path : list str) : str := join_with [46] path.
(** [DocPath::new(...).unwrap_or(DocPath::root())]. *)
Definition doc_path (text : str) : outcome docpath unit :=
  match path_new (uni_alpha w) (uni_numeric w) text with
  | Ok p => Ok p
  | Err _ => Ok path_root
  | Panic => Panic
  end.
(** 74-83, 137-145, 224-233: the rules and the generator of a matcher, if it can be read; the category is the body's. *)
Definition add_matcher (p : docpath) (m : list (str * json)) (st : store) : outcome store unit :=
  match matchers_from_integration_json w junk m with
  | Ok (rules, generator) =>
      let c := fold_left (fun c rule => x_add_rule c p rule And) rules (st_rules st) in
      Ok (mkStore c (match generator with Some g => add_generator_at GcBody p g (st_gens st) | None => st_gens st end))
  | Err _ => Ok st
  | Panic => Panic
  end.
(** 85-90, 147-154, 235-240: [gen] is looked up in [holder], its attributes in [attributes]. *)
Definition add_own_generator (p : docpath) (holder attributes : list (str * json)) (st : store) : store :=
  match obj_get generator_type holder with
  | Some gen =>
      match gen_from_map w (json_to_string w gen) attributes with
      | Some g => mkStore (st_rules st) (add_generator_at GcBody p g (st_gens st))
      | None => st
      end
  | None => st
  end.
Definition has_matcher (m : list (str * json)) : bool := match obj_get matcher_type m with Some _ => true | None => false end.
(** 212-258 [add_attributes]. *)
Fixpoint add_attributes (path : list str) (attributes : list (str * json)) (st : store) : outcome (list (str * str) * store) unit :=
  match attributes with
  | [] => Ok ([], st)
  | (k, v) :: rest =>
      bind (match v with
            | JObj m =>
                if has_matcher m then
                  bind (doc_path (dotted path ++ S_ "['@" ++ k ++ S_ "']")) (fun p =>
                  bind (add_matcher p m st) (fun st =>
                  match obj_get (S_ "value") m with
                  | Some value => Ok (json_to_string w value, add_own_generator p m m st)
                  | None => Panic
                  end))
                else Ok (json_to_string w v, st)
            | _ => Ok (json_to_string w v, st)
            end)
        (fun r => bind (add_attributes path rest (snd r)) (fun r' => Ok ((k, fst r) :: fst r', snd r')))
  end.
(** 93-101, 160-168: attributes that are not an object are ignored. *)
Definition attributes_of (path : list str) (obj : list (str * json)) (st : store) : outcome (list (str * str) * store) unit :=
  match obj_get (S_ "attributes") obj with
  | Some (JObj attributes) => add_attributes path attributes st
  | _ => Ok ([], st)
  end.
(** 191-198: how often an element is appended to its parent. *)
Definition examples_of (obj : list (str * json)) : outcome N unit :=
  match obj_get (S_ "examples") obj with
  | Some (JNum (PosInt n)) => Ok n
  | Some (JNum _) => Panic
  | _ => Ok 1
  end.
Section Children.
(** What an object in the array of children appends to its parent. *)
Variable create_child : list str -> list (str * json) -> store -> outcome (list xtree * store) unit.
Fixpoint add_children (path : list str) (l : list json) (st : store) : outcome (list xtree * store) unit :=
  match l with
  | [] => Ok ([], st)
  | JObj m :: l' =>
      bind (create_child path m st) (fun r => bind (add_children path l' (snd r)) (fun r' => Ok (fst r ++ fst r', snd r')))
  | _ => Panic
  end.
(** 92-121, 157-184: the element of a name, with its attributes and children. *)
Definition make_element (path : list str) (name : str) (obj : list (str * json)) (st : store) : outcome (xtree * store) unit :=
  bind (attributes_of (path ++ [name]) obj st) (fun ra =>
  bind (match obj_get (S_ "children") obj with
        | Some (JArr l) => add_children (path ++ [name]) l (snd ra)
        | Some _ => Panic
        | None => Ok ([], snd ra)
        end) (fun rc => Ok (XElem name (fst ra) (fst rc), snd rc))).
(** 57-188, 206-209 [create_element_from_json], without the appending. *)
Definition make_node (path : list str) (obj : list (str * json)) (st : store) : outcome (xtree * store) unit :=
  if has_matcher obj then
    match obj_get (S_ "value") obj with
    | Some (JObj value) =>
        match obj_get (S_ "name") value with
        | Some n =>
            let name := json_to_string w n in
            bind (doc_path (dotted (path ++ [name]))) (fun p =>
            bind (add_matcher p obj st) (fun st =>
            make_element path name value (add_own_generator p obj obj st)))
        | None => Panic
        end
    | _ => Panic
    end
  else
    match obj_get (S_ "content") obj with
    | Some content =>
        let t := XText (json_to_string w content) in
        match obj_get (S_ "matcher") obj with
        | Some matcher =>
            bind (doc_path (dotted (path ++ [S_ "#text"]))) (fun p =>
            match matcher with
            | JObj m => bind (add_matcher p m st) (fun st => Ok (t, add_own_generator p obj m st))
            | _ => Ok (t, st)
            end)
        | None => Ok (t, st)
        end
    | None =>
        match obj_get (S_ "name") obj with
        | Some n => make_element path (json_to_string w n) obj st
        | None => Panic
        end
    end.
(** 190-204. *)
Definition append (obj : list (str * json)) (r : xtree * store) : outcome (list xtree * store) unit :=
  bind (examples_of obj) (fun n =>
    Ok (match fst r with XElem _ _ _ => copies (N.to_nat n) (fst r) | XText _ => [fst r] end, snd r)).
End Children.
(** The fuel bounds the depth. *)
Fixpoint create_child (fuel : nat) (path : list str) (obj : list (str * json)) (st : store) : outcome (list xtree * store) unit :=
  match fuel with
  | O => Err tt
  | S f => bind (make_node (create_child f) path obj st) (append obj)
  end.
(** 23-55 [generate_xml_body]: the root element, if there is one. *)
Definition generate_xml_body (attributes : list (str * json)) (st : store) : outcome (option xtree * store) unit :=
  match obj_get (S_ "root") attributes with
  | Some (JObj obj) =>
      bind (make_node (create_child (json_depth (JObj obj))) [S_ "$"] obj st) (fun r =>
        Ok (match fst r with XElem _ _ _ => Some (fst r) | XText _ => None end, snd r))
  | _ => Ok (None, st)
  end.
End XmlJson.
