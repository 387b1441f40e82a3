(** Model of the resolution of path expressions in XML documents by the V2 matching engine:
    rust/pact_models/src/xml_utils.rs:28-291.

    Elements are those of kiss_xml (not modelled: reading the text of a document): a name, attributes (a map), children.
    [Element::text] (the text of an element and what is in it) is a parameter. *)
From Coq Require Import Ascii String List Arith NArith ZArith Lia Bool.
From Verif Require Import Base PathExp Json Text.
Import ListNotations.
Open Scope N_scope.

Inductive node :=
| NElem (name : str) (attributes : list (str * str)) (children : list node)
| NText (text : str)
| NOther.
Definition el_name (e : node) : str := match e with NElem n _ _ => n | _ => [] end.
Definition el_attributes (e : node) : list (str * str) := match e with NElem _ a _ => a | _ => [] end.
Definition el_children (e : node) : list node := match e with NElem _ _ c => c | _ => [] end.
(** kiss_xml [Element::child_elements]. *)
Definition is_element (e : node) : bool := match e with NElem _ _ _ => true | _ => false end.
Definition child_elements (e : node) : list node := filter is_element (el_children e).

(** xml_utils.rs:135-144 [group_children]: a map ordered by name. *)
Definition group_children (e : node) : list (str * list node) :=
  fold_left (fun m c => obj_insert (el_name c) (match obj_get (el_name c) m with Some l => l ++ [c] | None => [c] end) m) (child_elements e) [].

(** xml_utils.rs:190-203 [text_nodes]. *)
Definition text_nodes (e : node) : list str :=
  flat_map (fun c => match c with NText [] => [] | NText t => [t] | _ => [] end) (el_children e).

(** The arena of nodes below a node: what was appended to it. *)
Inductive tree := Tree (label : str) (below : list tree).
(** What a call of [query_graph] does to its parent: appends nodes, and possibly detaches the parent. *)
Definition found := (list tree * bool)%type.
Definition both (a b : found) : found := (fst a ++ fst b, snd a || snd b).
Definition nothing : found := ([], false).

Definition label (name : str) (index : N) : str := name ++ [91] ++ show_N index ++ [93].
(** 146-166 [query_attributes]: the first of the remaining tokens. *)
Definition query_attributes (ts : list token) (e : node) : list tree :=
  match ts with
  | TField (c :: name) :: _ =>
      if (c =? 64) && (match obj_get name (el_attributes e) with Some _ => true | None => false end) then [Tree (c :: name) []] else []
  | _ => []
  end.
(** 168-187 [query_text]. *)
Definition query_text (ts : list token) (e : node) : list tree :=
  match ts with
  | TField name :: _ => if str_eqb name (S_ "#text") && (match text_nodes e with [] => false | _ => true end) then [Tree name []] else []
  | _ => []
  end.
(** The children in groups, each with its position in the group. *)
Fixpoint numbered {A} (i : N) (l : list A) : list (N * A) := match l with [] => [] | x :: l' => (i, x) :: numbered (i + 1) l' end.
Definition all_children (e : node) : list (N * node) := flat_map (fun g => numbered 0 (snd g)) (group_children e).
(** A node appended to the parent, with what its own calls append to it; it disappears if one of them detaches it. *)
Definition append_node (l : str) (inner : found) : found := if snd inner then nothing else ([Tree l (fst inner)], false).

(** 55-133 [query_graph]. *)
Fixpoint query_graph (ts : list token) (index : N) (e : node) {struct ts} : found :=
  match ts with
  | [] => nothing
  | TField name :: rest =>
      if str_eqb (el_name e) name then
        append_node (label name index)
          (match rest with
           | [] => nothing
           | TIndex _ :: _ => both (query_attributes rest e ++ query_text rest e, false) (query_graph rest index e)
           | _ => both (query_attributes rest e ++ query_text rest e, false)
                       (fold_left (fun acc ic => both acc (query_graph rest (fst ic) (snd ic))) (all_children e) nothing)
           end)
      else nothing
  | TIndex i :: rest =>
      if i =? index then
        match rest with
        | [] => nothing
        | _ => both (query_attributes rest e ++ query_text rest e, false)
                    (fold_left (fun acc ic => both acc (query_graph rest (fst ic) (snd ic))) (all_children e) nothing)
        end
      else ([], true)
  | (TStar | TStarIndex) :: rest =>
      append_node (label (el_name e) index)
        (match rest with
         | [] => nothing
         | _ => both (query_attributes rest e ++ query_text rest e, false)
                     (fold_left (fun acc ic => both acc (query_graph rest (fst ic) (snd ic))) (all_children e) nothing)
         end)
  | TRoot :: rest => query_graph rest index e
  end.

(** The labels from the root to every node without children, in the order of [descendants]. *)
Fixpoint leaves (above : list str) (t : tree) : list (list str) :=
  match t with
  | Tree l [] => [above ++ [l]]
  | Tree l below => flat_map (leaves (above ++ [l])) below
  end.
Definition is_index (t : token) : bool := match t with TIndex _ => true | _ => false end.
(** 28-53 [resolve_path]; detaching the root has no effect. *)
Definition resolve_path (e : node) (expression : docpath) : list str :=
  let ts := path_tokens expression in
  let root := Tree [] (fst (query_graph ts 0 e)) in
  let depth := length (filter (fun t => negb (is_index t)) ts) in
  map (join_with [47]) (filter (fun p => (match last p [] with [] => false | _ => true end) && Nat.eqb (length p) depth) (leaves [] root)).

(** ** Following a pointer *)
Section Follow.
(** [\w] and [\d] of the regular expression for characters that are not ASCII; [Element::text]. *)
Variables (uni_word uni_digit : N -> bool) (text : node -> str).
Definition is_word (c : N) : bool := is_upper c || is_lower c || is_digit c || (c =? 95) || ((128 <=? c) && uni_word c).
Definition is_number (c : N) : bool := is_digit c || ((128 <=? c) && uni_digit c).
Fixpoint span (p : N -> bool) (s : str) : str * str :=
  match s with
  | [] => ([], [])
  | c :: s' => if p c then let (a, b) := span p s' in (c :: a, b) else ([], s)
  end.
(** 205-207 [PATH_RE]: (\w+)\[(\d+)], at the start of the text and anywhere in it. *)
Definition match_here (s : str) : option (str * str) :=
  let (name, s1) := span is_word s in
  match name, s1 with
  | _ :: _, c :: s2 =>
      if c =? 91 then
        let (digits, s3) := span is_number s2 in
        match digits, s3 with
        | _ :: _, d :: _ => if d =? 93 then Some (name, digits) else None
        | _, _ => None
        end
      else None
  | _, _ => None
  end.
Fixpoint captures (s : str) : option (str * str) :=
  match match_here s with
  | Some r => Some r
  | None => match s with [] => None | _ :: s' => captures s' end
  end.
Definition index_of (s : str) : N := match parse_usize s with Some n => n | None => 0 end.
(** 210-218 [XmlResult]. *)
Inductive xml_result := ElementNode (e : node) | TextNode (s : str) | AttributeNode (name value : str).
(** 246-291 [match_next]. *)
Fixpoint match_next (paths : list str) (e : node) : option xml_result :=
  match paths with
  | [] => None
  | part :: rest =>
      match part with
      | c :: name =>
          if c =? 64 then match obj_get name (el_attributes e) with Some v => Some (AttributeNode name v) | None => None end
          else if str_eqb part (S_ "#text") then match text e with [] => None | t => Some (TextNode t) end
          else match captures part with
               | Some (n, i) =>
                   match obj_get n (group_children e) with
                   | Some l => match nth_error l (N.to_nat (index_of i)) with
                               | Some child => match rest with [] => Some (ElementNode child) | _ => match_next rest child end
                               | None => None
                               end
                   | None => None
                   end
               | None => None
               end
      | [] => None
      end
  end.
(** 221-244 [resolve_matching_node]. *)
Definition resolve_matching_node (e : node) (path : str) : option xml_result :=
  match filter (fun s => match s with [] => false | _ => true end) (split_on 47 path) with
  | [] => None
  | part :: rest =>
      match captures part with
      | Some (name, i) =>
          if (index_of i =? 0) && str_eqb name (el_name e) then
            match rest with [] => Some (ElementNode e) | _ => match_next rest e end
          else None
      | None => None
      end
  end.
End Follow.
