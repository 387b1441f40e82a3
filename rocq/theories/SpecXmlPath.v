(** Specification of path expressions in XML documents. *)
From Coq Require Import Ascii String List Arith NArith ZArith Lia Bool.
From Verif Require Import Base PathExp Json Text XmlPath.
Import ListNotations.
Open Scope N_scope.

(** A way into a document: elements by name and position among their siblings of that name, at the end perhaps an attribute or
    the text of an element. *)
Inductive step := SElement (name : str) (position : N) | SAttribute (name : str) | SText.
Definition show_step (s : step) : str :=
  match s with
  | SElement n i => n ++ S_ "[" ++ show_N i ++ S_ "]"
  | SAttribute n => S_ "@" ++ n
  | SText => S_ "#text"
  end.
Definition pointer (l : list step) : str := flat_map (fun s => S_ "/" ++ show_step s) l.

Definition children_named (n : str) (e : node) : list node :=
  filter (fun c => match c with NElem m _ _ => str_eqb m n | _ => false end) (el_children e).
Definition has_text (e : node) : Prop := exists t, In (NText t) (el_children e) /\ t <> [].
(** Where a way leads from the element [e]; [text] gives the text of an element. *)
Inductive below (text : node -> str) : node -> list step -> xml_result -> Prop :=
| bl_here : forall e, below text e [] (ElementNode e)
| bl_attribute : forall e n v, obj_get n (el_attributes e) = Some v -> below text e [SAttribute n] (AttributeNode n v)
| bl_text : forall e, has_text e -> below text e [SText] (TextNode (text e))
| bl_child : forall e n i c l r, nth_error (children_named n e) (N.to_nat i) = Some c -> below text c l r -> below text e (SElement n i :: l) r.
Definition leads_to (text : node -> str) (root : node) (l : list step) (r : xml_result) : Prop :=
  exists l', l = SElement (el_name root) 0 :: l' /\ below text root l' r.

(** A position after an attribute or [#text] is ignored. *)
Definition ignored (ts : list token) : Prop := ts = [] \/ exists i, ts = [TIndex i].
(** The ways an expression stands for: a name is an element of that name at any position, [name\[i\]] at that position, [*] (and
    [\[*\]]) any element. *)
Inductive stands_for : list token -> list step -> Prop :=
| sf_end : stands_for [] []
| sf_field : forall n i ts l, stands_for ts l -> stands_for (TField n :: ts) (SElement n i :: l)
| sf_indexed : forall n i ts l, stands_for ts l -> stands_for (TField n :: TIndex i :: ts) (SElement n i :: l)
| sf_star : forall n i ts l, stands_for ts l -> stands_for (TStar :: ts) (SElement n i :: l)
| sf_star_index : forall n i ts l, stands_for ts l -> stands_for (TStarIndex :: ts) (SElement n i :: l)
| sf_attribute : forall n ts, ignored ts -> stands_for (TField (S_ "@" ++ n) :: ts) [SAttribute n]
| sf_text : forall ts, ignored ts -> stands_for (TField (S_ "#text") :: ts) [SText].
(** Expressions in which a position only follows a name. *)
Inductive regular : list token -> Prop :=
| rg_end : regular []
| rg_field : forall n ts, regular ts -> regular (TField n :: ts)
| rg_indexed : forall n i ts, regular ts -> regular (TField n :: TIndex i :: ts)
| rg_star : forall ts, regular ts -> regular (TStar :: ts)
| rg_star_index : forall ts, regular ts -> regular (TStarIndex :: ts).

(** The names of XML: not empty, without [/] and [\[], an element name begins with neither [@] nor [#]. *)
Definition xml_name (n : str) : Prop := n <> [] /\ ~ In 47 n /\ ~ In 91 n /\ (forall c n', n = c :: n' -> c <> 64 /\ c <> 35).
Inductive proper_names : node -> Prop :=
| pn_text : forall t, proper_names (NText t)
| pn_other : proper_names NOther
| pn_element : forall n ats cs, xml_name n -> (forall a v, In (a, v) ats -> ~ In 47 a) -> NoDup (keys ats) ->
    (forall c, In c cs -> proper_names c) -> proper_names (NElem n ats cs).
(** Names of letters, digits and underscores only (and what is counted among them); fewer than 2^64 children. *)
Inductive word_names (word : N -> bool) : node -> Prop :=
| wn_text : forall t, word_names word (NText t)
| wn_other : word_names word NOther
| wn_element : forall n ats cs, forallb word n = true -> N.of_nat (length cs) < two64 ->
    (forall c, In c cs -> word_names word c) -> word_names word (NElem n ats cs).
