(** Specification vocabulary for body matching. *)
From Coq Require Import Ascii String List Arith NArith ZArith Lia Bool Sorted Permutation.
From Verif Require Import Base PathExp Json MatchingRules Matchers JsonCompare.
From Verif Require SpecRules.
Import ListNotations.
Open Scope N_scope.

(** The six JSON types. *)
Inductive json_type := TyNull | TyBool | TyNumber | TyString | TyArray | TyObject.
Definition type_of (j : json) : json_type :=
  match j with
  | JNull => TyNull | JBool _ => TyBool | JNum _ => TyNumber | JStr _ => TyString
  | JArr _ => TyArray | JObj _ => TyObject
  end.
Definition is_scalar (j : json) : Prop :=
  match j with JArr _ | JObj _ => False | _ => True end.

(** Two scalars that are the same value; numbers by serde_json's equality
    (1 and 1.0 differ, 0.0 and -0.0 are equal). *)
Inductive same_scalar : json -> json -> Prop :=
| ss_null : same_scalar JNull JNull
| ss_bool : forall b, same_scalar (JBool b) (JBool b)
| ss_num : forall m n, num_eqb m n = true -> same_scalar (JNum m) (JNum n)
| ss_str : forall s, same_scalar (JStr s) (JStr s).

(** The actual document agrees with the expected one: scalars are the same,
    arrays agree element by element, every expected entry of an object is
    present and agrees; entries that are not expected only if [extra]. *)
Inductive agrees (extra : bool) : json -> json -> Prop :=
| ag_scalar : forall e a, same_scalar e a -> agrees extra e a
| ag_arr : forall e a, Forall2 (agrees extra) e a -> agrees extra (JArr e) (JArr a)
| ag_obj : forall e a,
    (forall k v, obj_get k e = Some v -> exists v', obj_get k a = Some v' /\ agrees extra v v') ->
    (extra = false -> forall k, obj_get k e = None -> obj_get k a = None) ->
    agrees extra (JObj e) (JObj a).

(** The actual document has the shape of the expected one, the reading of a
    type rule on the whole document: the same JSON type everywhere; an array
    element is compared with the expected element at its position, or with the
    first expected one if there is none there. *)
Definition nth_or_first {A} (l : list A) (i : nat) : option A :=
  match nth_error l i with
  | Some x => Some x
  | None => match l with x :: _ => Some x | [] => None end
  end.
Inductive shape (extra : bool) : json -> json -> Prop :=
| sh_scalar : forall e a, is_scalar e -> type_of e = type_of a -> shape extra e a
| sh_arr : forall e a,
    (forall i x y, nth_or_first e i = Some x -> nth_error a i = Some y -> shape extra x y) ->
    shape extra (JArr e) (JArr a)
| sh_obj : forall e a,
    (forall k v, obj_get k e = Some v -> exists v', obj_get k a = Some v' /\ shape extra v v') ->
    (extra = false -> forall k, obj_get k e = None -> obj_get k a = None) ->
    shape extra (JObj e) (JObj a).

(** A context without any matching rule, and one with a single rule list at a path. *)
Definition no_rules (c : context) : Prop := cat_rules (matchers c) = [].
Definition only_rule (c : context) (p : docpath) (rl : rulelist) : Prop :=
  cat_name (matchers c) = CBody /\ cat_rules (matchers c) = [(p, rl)].

(** [T] is accepted: no mismatch is reported. *)
Definition accepted {A} (l : list A) : Prop := l = [].

(** Type rules, and the sizes each of them allows. *)
Definition type_rule (r : rule) : Prop :=
  match r with RType | RMinType _ | RMaxType _ | RMinMaxType _ _ => True | _ => False end.
Definition size_allowed (r : rule) (n : N) : Prop :=
  match r with
  | RMinType min => min <= n
  | RMaxType max => n <= max
  | RMinMaxType min max => min <= n <= max
  | _ => True
  end.
(** The size bound of a type rule at the location it is written for: it is put
    on objects, and on arrays when the expected array is not empty. *)
Definition size_respected (r : rule) (e a : json) : Prop :=
  match e, a with
  | JArr (_ :: _), JArr l => size_allowed r (len l)
  | JObj _, JObj m => size_allowed r (len m)
  | _, _ => True
  end.

(** The HTTP status classes. *)
Definition in_class (s : http_status) (code : N) : Prop :=
  match s with
  | HInformation => 100 <= code < 200
  | HSuccess => 200 <= code < 300
  | HRedirect => 300 <= code < 400
  | HClientError => 400 <= code < 500
  | HServerError => 500 <= code < 600
  | HNonError => code < 400
  | HError => code >= 400
  | HStatusCodes l => In code l
  end.

(** The deep merge of two documents. *)
Inductive merged : json -> json -> json -> Prop :=
| mg_arr : forall a b, merged (JArr a) (JArr b) (JArr (a ++ b))
| mg_obj : forall a b c,
    StronglySorted str_lt (keys c) ->
    (forall k x y, obj_get k a = Some x -> obj_get k b = Some y -> exists z, obj_get k c = Some z /\ merged x y z) ->
    (forall k, obj_get k b = None -> obj_get k c = obj_get k a) ->
    (forall k, obj_get k a = None -> obj_get k c = obj_get k b) ->
    merged (JObj a) (JObj b) (JObj c)
| mg_other : forall a b,
    ~ (type_of a = TyArray /\ type_of b = TyArray) -> ~ (type_of a = TyObject /\ type_of b = TyObject) ->
    merged a b b.

(** No array anywhere inside. *)
Inductive array_free : json -> Prop :=
| af_scalar : forall j, is_scalar j -> array_free j
| af_nil : array_free (JArr [])
| af_obj : forall m, (forall k v, In (k, v) m -> array_free v) -> array_free (JObj m).

(** Contexts that differ only in the iteration order of their rule map. *)
Definition reordered (c c' : context) : Prop :=
  allow c' = allow c /\ cat_name (matchers c') = cat_name (matchers c) /\
  Permutation (cat_rules (matchers c)) (cat_rules (matchers c')).
(** A rule path written for exactly this location. *)
Definition written_for (p : docpath) (q : docpath) : Prop :=
  SpecRules.matching_path (to_vec p) q /\ length (path_tokens q) = length (path_tokens p).
