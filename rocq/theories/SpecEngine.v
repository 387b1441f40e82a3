(** Specification vocabulary for the V2 matching engine (C101-...): what a request has to be
    like to be accepted, for an expected request without matching rules. *)
From Coq Require Import String List Arith NArith Bool.
From Verif Require Import Base Json ContentType Query MatchingRules SpecHeaders.
Import ListNotations.
Open Scope N_scope.

Definition or_else_nil {A} (o : option (list A)) : list A := match o with Some l => l | None => [] end.
(** Values compared without rules: one expected value stands for any number of equal actual
    values (also none); other lists have to be the same. *)
Definition values_accept (e a : list str) : Prop :=
  match e with
  | [v] => forall u, In u a -> u = v
  | _ => a = e
  end.
(** The name under which a value is looked for: a name that is a number or [[*]] is taken for
    an index, and the name of the whole part is used in its place. *)
Definition looked_up (part k : str) : str :=
  if str_eqb k (S_ "[*]") then part else match parse_usize k with Some _ => part | None => k end.
Definition as_texts (l : list (option str)) : list str := map (fun o => match o with Some v => v | None => [] end) l.

(** ** Query *)
(** [acc k] compares the values of the parameter [k]. *)
Definition query_accepts_by (acc : str -> list str -> list str -> Prop) (e a : option query_map) : Prop :=
  match or_else_nil e with
  | [] => or_else_nil a = []
  | es =>
      (forall k, In k (map fst es) <-> In k (map fst (or_else_nil a))) /\
      (forall k vs us, In (k, vs) es -> In (looked_up (S_ "query") k, us) (or_else_nil a) ->
         acc k (as_texts vs) (as_texts us))
  end.
Definition query_accepts : option query_map -> option query_map -> Prop := query_accepts_by (fun _ => values_accept).

Section Headers.
Variable lower : str -> str.
Variable space : N -> bool.
(** ** Headers *)
(** The same media type, and every expected parameter is there with the same value ignoring case. *)
Definition structured_accepts (e a : structured) : Prop :=
  media e = media a /\
  forall n v, param n (params e) = Some v -> exists v', param n (params a) = Some v' /\ lower v' = lower v.
(** Of several expected values of such a header only the first is compared, with the first actual value. *)
Definition header_value_accepts (k : str) (vs us : list str) : Prop :=
  (structured_name lower k -> forall v vs' u us', vs = v :: vs' -> us = u :: us' -> forall e a, written space e v -> written space a u ->
     structured_ok space e -> structured_ok space a -> structured_accepts e a) /\
  (~ structured_name lower k -> values_accept vs us).
(** [acc k] compares the values of the header [k]. *)
Definition headers_accept_by (acc : str -> list str -> list str -> Prop) (e a : option header_map) : Prop :=
  forall k vs, In (k, vs) (or_else_nil e) ->
    (exists k' us, In (k', us) (or_else_nil a) /\ lower k' = lower k) /\
    (forall k' us, In (k', us) (or_else_nil a) -> lower k' = lower (looked_up (S_ "headers") k) -> acc k vs us).
Definition headers_accept : option header_map -> option header_map -> Prop := headers_accept_by header_value_accepts.
(** Names under which a parameter is found in the parsed value. *)
Definition parameter_name (k : str) : Prop :=
  (k <> [] /\ ~ In 47 k /\ ~ In 126 k) /\ k <> S_ "*" /\ k <> S_ "[*]" /\ parse_usize k = None.
(** The structured values can be read, and the parameters of expected ones can be looked up. *)
Definition structured_readable (v : str) : Prop := exists h, structured_ok space h /\ written space h v.
Definition structured_expected (v : str) : Prop :=
  exists h, structured_ok space h /\ written space h v /\ forall n u, In (n, u) (params h) -> parameter_name n.
(** The condition on headers: names are distinct (those of the actual headers ignoring case) and no
    wildcards; values of structured headers can be read, there is one actual value where one is
    expected, and at least one otherwise (for the names that are [free] of rules). *)
Definition headers_fit_by (free : str -> Prop) (e a : option header_map) : Prop :=
  NoDup (map fst (or_else_nil e)) /\ unique_names lower (or_else_nil a) /\
  forall k vs, In (k, vs) (or_else_nil e) -> k <> S_ "*" /\ k <> S_ "[*]" /\
    (structured_name lower k -> free k -> looked_up (S_ "headers") k = k /\ Forall structured_expected vs /\
       forall k' us, In (k', us) (or_else_nil a) -> lower k' = lower k ->
         Forall structured_readable us /\ us <> [] /\ (length vs = 1%nat -> length us = 1%nat)).
Definition headers_fit : option header_map -> option header_map -> Prop := headers_fit_by (fun _ => True).
End Headers.

(** ** Rules *)
(** The rules a plan carries to the comparison as they are: not [min-max-type], [array-contains], [each-key]
    and [each-value]. *)
Definition carried (r : rule) : Prop :=
  match r with
  | RMinMaxType _ _ | RArrayContains _ | REachKey _ | REachValue _ => False
  | RStatusCode (HStatusCodes codes) => Forall (fun c => c < 65536) codes
  | _ => True
  end.
(** Rules that are written to the plan in a form the plan does not accept. *)
Definition refused (r : rule) : Prop :=
  match r with RMinMaxType _ _ => True | _ => False end.
Section Rules.
Variable sat : rule -> str -> str -> Prop.                 (* a text satisfies a rule, given the expected text *)
Variable sat_list : rule -> list str -> list str -> Prop.  (* the same for lists *)
(** A rule on a query parameter or header: a single expected value stands for any number of values, each of
    which has to satisfy the rule; otherwise the rule is applied to the lists. *)
Definition rule_accepts (r : rule) (vs us : list str) : Prop :=
  match vs with
  | [v] => forall u, In u us -> sat r v u
  | _ => sat_list r vs us
  end.
(** [sel k] are the rules that apply to the name [k]: all of them are required, whatever the list says,
    and without rules the values are compared with [acc]. *)
Definition accepts_with (sel : str -> option (list rule)) (acc : str -> list str -> list str -> Prop) (k : str) (vs us : list str) : Prop :=
  match sel k with
  | Some rs => forall r, In r rs -> carried r /\ rule_accepts r vs us
  | None => acc k vs us
  end.
End Rules.

(** ** JSON bodies *)
Definition leaf_value (j : json) : Prop := match j with JArr _ | JObj _ => False | _ => True end.
(** Objects have the same names, and the same values in this sense; arrays the same length and
    the same values where the expected item is not itself an array or an object. *)
Inductive json_accepts : json -> json -> Prop :=
| ja_leaf v u : leaf_value v -> json_eqb v u = true -> json_accepts v u
| ja_array es us : length us = length es ->
    (forall i v u, nth_error es i = Some v -> nth_error us i = Some u -> leaf_value v -> json_eqb v u = true) ->
    json_accepts (JArr es) (JArr us)
| ja_object m m' : (forall k, In k (map fst m) <-> In k (map fst m')) ->
    (forall k v u, In (k, v) m -> In (k, u) m' -> json_accepts v u) ->
    json_accepts (JObj m) (JObj m').
(** The values in a document that are neither arrays nor objects. *)
Inductive leaf_of : json -> json -> Prop :=
| lo_here v : leaf_value v -> leaf_of v v
| lo_array v u l : In u l -> leaf_of v u -> leaf_of v (JArr l)
| lo_object v k u m : In (k, u) m -> leaf_of v u -> leaf_of v (JObj m).
(** Names that are found in the actual body: not empty and without slash and tilde; the
    length of an array is a machine word. *)
Definition simple_name (k : str) : Prop := k <> [] /\ ~ In 47 k /\ ~ In 126 k.
Inductive simple_names : json -> Prop :=
| sn_leaf v : leaf_value v -> simple_names v
| sn_array l : N.of_nat (length l) < 2 ^ 64 -> simple_names (JArr l)
| sn_object m : (forall k v, In (k, v) m -> simple_name k /\ simple_names v) -> simple_names (JObj m).

(** ** Bodies *)
(** [type] is what the request is compared under (the expected content type, text/plain when there is
    none), [types_agree] that the actual request has a content type with the same text; [read] parses JSON
    and [text] decodes. With another content type every body is accepted. *)
Definition no_body (b : body) : Prop := match b with BPresent [] _ _ => True | BPresent _ _ _ => False | _ => True end.
Definition present_bytes (b : body) : option (list N) := match b with BPresent bs _ _ => Some bs | _ => None end.
Definition body_accepts (type : content_type) (types_agree : Prop) (read : list N -> option json) (text : list N -> str) (e a : body) : Prop :=
  match e with
  | BMissing => True
  | BEmpty | BNull => no_body a
  | BPresent bs _ _ =>
      types_agree ->
      (is_json type = true -> exists bs' j u, present_bytes a = Some bs' /\ read bs = Some j /\ read bs' = Some u /\ json_accepts j u) /\
      (is_json type = false -> text bs = match present_bytes a with Some bs' => text bs' | None => [] end)
  end.
(** The condition on bodies: an expected JSON body can be read, its names can be looked up and its values
    read back as they are shown, and JSON is read to well-formed documents; other expected bodies are not XML. *)
Definition body_fits (type : content_type) (read : list N -> option json) (show : json -> list N) (e a : body) : Prop :=
  match e with
  | BPresent bs _ _ =>
      (is_json type = true -> exists j, read bs = Some j /\ simple_names j /\ (forall v, leaf_of v j -> read (show v) = Some v) /\
         forall bs' u, present_bytes a = Some bs' -> read bs' = Some u -> json_wf u) /\
      (is_json type = false -> is_xml type = false)
  | _ => True
  end.
(** The condition on queries: names are distinct, and no expected name is a wildcard. *)
Definition query_fits (e a : option query_map) : Prop :=
  NoDup (map fst (or_else_nil e)) /\ NoDup (map fst (or_else_nil a)) /\ ~ In (S_ "*") (map fst (or_else_nil e)).
