(** Specification of the patterns of the consumer DSL: the documents a pattern accepts. *)
From Coq Require Import Ascii String List Arith NArith ZArith Lia Bool Permutation Sorted.
From Verif Require Import Base PathExp Json MatchingRules Matchers SpecMatch SpecValues Pattern.
Import ListNotations.
Open Scope N_scope.

(** * The documents a pattern accepts *)
(** [typed] below a [like!] or [each_like!]; [extra]: entries that are not in the pattern are
    allowed (responses). *)
Section Means.
Variable w : world.
Variable extra : bool.
Inductive means : bool -> pattern -> json -> Prop :=
| mn_value : forall j a, agrees extra j a -> means false (PJson j) a
| mn_value_typed : forall j a, shape extra j a -> means true (PJson j) a
| mn_like : forall typed p a, type_of (to_example p) = type_of a -> means true p a -> means typed (PLike p) a
| mn_term : forall typed re ex a, regex_match w re (text_of w a) = Some true -> means typed (PTerm re ex) a
| mn_datetime : forall typed f ex a, json_satisfies w (RTimestamp f) a -> means typed (PDateTime f ex) a
| mn_object : forall typed fs a,
    (forall k p, In (k, p) fs -> exists v, obj_get k a = Some v /\ means typed p v) ->
    (extra = false -> forall k, In k (keys a) -> In k (keys fs)) ->
    means typed (PObject fs) (JObj a)
| mn_array : forall ps a, Forall2 (means false) ps a -> means false (PArray ps) (JArr a)
(** Below [like!] or [each_like!] an array of patterns is open: there may be fewer elements, and
    an element without a pattern is of the type of the first example. *)
| mn_array_typed : forall ps a,
    (forall i p v, nth_error ps i = Some p -> nth_error a i = Some v -> means true p v) ->
    (forall i p ps' v, ps = p :: ps' -> nth_error ps i = None -> nth_error a i = Some v -> shape extra (to_example p) v) ->
    means true (PArray ps) (JArr a)
| mn_each_like : forall typed p min a, min <= len a -> (forall v, In v a -> means true p v) ->
    means typed (PEachLike p min) (JArr a)
(** With a minimum of 0 the example is empty and says nothing about the elements. *)
| mn_each_like_0 : forall typed p a, means typed (PEachLike p 0) (JArr a).
End Means.

(** * The patterns this is claimed of *)
(** A key written like a number is the usual form of it (not 007 or +7). *)
Definition canonical_key (k : str) : Prop := forall i, parse_usize k = Some i -> k = show_N i.
(** A pattern with a rule of its own. *)
Definition ruled (p : pattern) : Prop :=
  match p with PLike _ | PEachLike _ _ | PTerm _ _ | PDateTime _ _ => True | _ => False end.
Fixpoint without_like (p : pattern) : pattern := match p with PLike q => without_like q | _ => p end.
(** An [each_like!] directly within an [each_like!], with an element that has a rule of its own. *)
Definition nested_each_like (p : pattern) : Prop :=
  exists q n, without_like p = PEachLike q n /\ ruled q.
(** (Lengths are 64-bit numbers.) *)
Inductive proper : pattern -> Prop :=
| pr_json : forall j, json_wf j -> proper (PJson j)
| pr_array : forall l, len l < 2 ^ 64 -> (forall p, In p l -> proper p) -> proper (PArray l)
| pr_object : forall fs, NoDup (keys fs) -> (forall k p, In (k, p) fs -> canonical_key k /\ proper p) -> proper (PObject fs)
| pr_like : forall p, proper p -> proper (PLike p)
| pr_each : forall p n, n < 2 ^ 64 -> proper p -> proper (PEachLike p n)
| pr_term : forall re ex, proper (PTerm re ex)
| pr_datetime : forall f ex, proper (PDateTime f ex).
(** No such nesting anywhere. *)
Inductive untied : pattern -> Prop :=
| un_json : forall j, untied (PJson j)
| un_array : forall l, (forall p, In p l -> untied p) -> untied (PArray l)
| un_object : forall fs, (forall k p, In (k, p) fs -> untied p) -> untied (PObject fs)
| un_like : forall p, untied p -> untied (PLike p)
| un_each : forall p n, untied p -> ~ nested_each_like p -> untied (PEachLike p n)
| un_term : forall re ex, untied (PTerm re ex)
| un_datetime : forall f ex, untied (PDateTime f ex).
(** Nesting depth of the patterns (an [each_like!] counts twice). *)
Fixpoint depth (p : pattern) : nat :=
  match p with
  | PArray l => S (fold_right Nat.max O (map depth l))
  | PObject fs => S (fold_right Nat.max O (map (fun kv => depth (snd kv)) fs))
  | PLike q => depth q
  | PEachLike q _ => S (S (depth q))
  | PObjectMatching q _ => S (depth q)
  | _ => O
  end.
(** The example of every term and date satisfies its own rule. *)
Inductive exemplary (w : world) : pattern -> Prop :=
| ex_json : forall j, exemplary w (PJson j)
| ex_array : forall l, (forall p, In p l -> exemplary w p) -> exemplary w (PArray l)
| ex_object : forall fs, (forall k p, In (k, p) fs -> exemplary w p) -> exemplary w (PObject fs)
| ex_like : forall p, exemplary w p -> exemplary w (PLike p)
| ex_each : forall p n, exemplary w p -> exemplary w (PEachLike p n)
| ex_term : forall re ex, regex_match w re ex = Some true -> exemplary w (PTerm re ex)
| ex_datetime : forall f ex, json_satisfies w (RTimestamp f) (JStr ex) -> exemplary w (PDateTime f ex).

(** A document as it can be in memory: every array has fewer than 2^64 elements. *)
Inductive fits : json -> Prop :=
| ft_scalar : forall j, is_scalar j -> fits j
| ft_arr : forall l, len l < 2 ^ 64 -> (forall x, In x l -> fits x) -> fits (JArr l)
| ft_obj : forall m, (forall k x, In (k, x) m -> fits x) -> fits (JObj m).

(** The rules of a pattern, in any order of the rule map. *)
Definition rules_of_pattern (p : pattern) (c : category) : Prop :=
  cat_name c = CBody /\ Permutation (cat_rules (body_rules_of p)) (cat_rules c).

(** * Null fields removed *)
(** In the objects at the top and in arrays; the fields of an object are kept as they are. *)
Inductive stripped : json -> json -> Prop :=
| st_scalar : forall j, is_scalar j -> stripped j j
| st_arr : forall l l', Forall2 stripped l l' -> stripped (JArr l) (JArr l')
| st_obj : forall m m', (forall k v, In (k, v) m' <-> In (k, v) m /\ v <> JNull) -> StronglySorted str_lt (keys m') -> stripped (JObj m) (JObj m').
