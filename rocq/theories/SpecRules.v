(** Specification vocabulary for matching rules and rule collections. *)
From Coq Require Import String List Arith NArith Lia Bool Permutation.
From Verif Require Import Base PathExp SpecPath Json MatchingRules.
Import ListNotations.
Open Scope N_scope.

(** [P] holds of a rule and of every rule nested in it. *)
Definition is_leaf (r : rule) : Prop :=
  match r with RArrayContains _ | REachKey _ | REachValue _ => False | _ => True end.
Inductive rule_all (P : rule -> Prop) : rule -> Prop :=
| ra_leaf : forall r, is_leaf r -> P r -> rule_all P r
| ra_arr : forall vs, P (RArrayContains vs) ->
    Forall (fun v => Forall (fun pr => Forall (rule_all P) (rl_rules (snd pr))) (cat_rules (snd v))) vs ->
    rule_all P (RArrayContains vs)
| ra_key : forall d, P (REachKey d) ->
    (forall r, In (inl r) (def_rules d) -> rule_all P r) -> rule_all P (REachKey d)
| ra_val : forall d, P (REachValue d) ->
    (forall r, In (inl r) (def_rules d) -> rule_all P r) -> rule_all P (REachValue d).

(** * Two rules, rule lists, categories that mean the same *)
(** Same kind, same attributes; rule maps are compared as unordered maps from
    path steps, and the cascaded flag (a property of a lookup) is ignored. *)
Inductive item_rel (R : rule -> rule -> Prop) : rule + str -> rule + str -> Prop :=
| ir_rule : forall r r', R r r' -> item_rel R (inl r) (inl r')
| ir_ref : forall n, item_rel R (inr n) (inr n).
Inductive same_rule : rule -> rule -> Prop :=
| sr_leaf : forall r, is_leaf r -> same_rule r r
| sr_arr : forall vs vs',
    Forall2 (fun v v' =>
      fst v = fst v' /\ cat_name (snd v) = cat_name (snd v') /\
      exists perm, Permutation (cat_rules (snd v)) perm /\
        Forall2 (fun pr pr' => path_tokens (fst pr) = path_tokens (fst pr') /\
                               rl_logic (snd pr) = rl_logic (snd pr') /\
                               Forall2 same_rule (rl_rules (snd pr)) (rl_rules (snd pr')))
                perm (cat_rules (snd v'))) vs vs' ->
    same_rule (RArrayContains vs) (RArrayContains vs')
| sr_key : forall d d',
    def_value d = def_value d' -> def_type d = def_type d' -> def_expr d = def_expr d' ->
    Forall2 (item_rel same_rule) (def_rules d) (def_rules d') ->
    same_rule (REachKey d) (REachKey d')
| sr_val : forall d d',
    def_value d = def_value d' -> def_type d = def_type d' -> def_expr d = def_expr d' ->
    Forall2 (item_rel same_rule) (def_rules d) (def_rules d') ->
    same_rule (REachValue d) (REachValue d').

Definition same_rulelist (a b : rulelist) : Prop :=
  rl_logic a = rl_logic b /\ Forall2 same_rule (rl_rules a) (rl_rules b).
Definition same_entry (a b : docpath * rulelist) : Prop :=
  path_tokens (fst a) = path_tokens (fst b) /\ same_rulelist (snd a) (snd b).
Definition same_category (a b : category) : Prop :=
  cat_name a = cat_name b /\
  exists perm, Permutation (cat_rules a) perm /\ Forall2 same_entry perm (cat_rules b).
(** Collections: as unordered maps, categories without rules being irrelevant. *)
Definition has_rules (nc : category_name * category) : bool := negb (cat_is_empty (snd nc)).
Definition same_collection (a b : matching_rules) : Prop :=
  exists perm, Permutation (filter has_rules a) perm /\
    Forall2 (fun x y => fst x = fst y /\ same_category (snd x) (snd y)) perm (filter has_rules b).

(** * Restrictions under which a rule survives the JSON form *)
Definition path_texts (m : list (docpath * rulelist)) : list str := map (fun pr => path_expr (fst pr)) m.
Definition entry_writable (w : world) (pr : docpath * rulelist) : Prop :=
  path_new (uni_alpha w) (uni_numeric w) (path_expr (fst pr)) = Ok (fst pr) /\
  path_expr (fst pr) <> S_ "matchers" /\ rl_rules (snd pr) <> [].
Definition is_resolved (x : rule + str) : Prop := match x with inl _ => True | inr _ => False end.
Definition writable_here (w : world) (r : rule) : Prop :=
  match r with
  | RStatusCode (HStatusCodes l) => Forall (fun c => c < 65536) l
  | RArrayContains vs =>
      Forall (fun v => cat_name (snd v) = CBody /\ NoDup (path_texts (cat_rules (snd v))) /\
                       Forall (entry_writable w) (cat_rules (snd v))) vs
  | REachKey d | REachValue d => def_type d = VUnknown /\ def_expr d = [] /\ Forall is_resolved (def_rules d)
  | _ => True
  end.
Definition writable (w : world) : rule -> Prop := rule_all (writable_here w).

(** The same without a condition on the value type and the expression of definitions. *)
Definition readable_here (w : world) (r : rule) : Prop :=
  match r with
  | REachKey d | REachValue d => Forall is_resolved (def_rules d)
  | _ => writable_here w r
  end.
Definition readable (w : world) : rule -> Prop := rule_all (readable_here w).
(** What a rule comes back as: like [same_rule], but without the value type and the
    expression of each-key and each-value definitions. *)
Inductive comes_back : rule -> rule -> Prop :=
| cb_leaf : forall r, is_leaf r -> comes_back r r
| cb_arr : forall vs vs',
    Forall2 (fun v v' =>
      fst v = fst v' /\ cat_name (snd v) = cat_name (snd v') /\
      exists perm, Permutation (cat_rules (snd v)) perm /\
        Forall2 (fun pr pr' => path_tokens (fst pr) = path_tokens (fst pr') /\
                               rl_logic (snd pr) = rl_logic (snd pr') /\
                               Forall2 comes_back (rl_rules (snd pr)) (rl_rules (snd pr')))
                perm (cat_rules (snd v'))) vs vs' ->
    comes_back (RArrayContains vs) (RArrayContains vs')
| cb_key : forall d d',
    def_value d = def_value d' -> def_type d' = VUnknown -> def_expr d' = [] ->
    Forall2 (item_rel comes_back) (def_rules d) (def_rules d') ->
    comes_back (REachKey d) (REachKey d')
| cb_val : forall d d',
    def_value d = def_value d' -> def_type d' = VUnknown -> def_expr d' = [] ->
    Forall2 (item_rel comes_back) (def_rules d) (def_rules d') ->
    comes_back (REachValue d) (REachValue d').

(** Representation invariant alone: hash map keys are distinct, codes are u16. *)
Definition rep_here (r : rule) : Prop :=
  match r with
  | RStatusCode (HStatusCodes l) => Forall (fun c => c < 65536) l
  | RArrayContains vs => Forall (fun v => NoDup (path_texts (cat_rules (snd v)))) vs
  | _ => True
  end.
Definition rep_ok : rule -> Prop := rule_all rep_here.

(** * Selection *)
(** Number of steps times two to the number of exact steps. *)
Definition specificity (p : docpath) : N := 2 ^ N.of_nat (exact_steps (path_tokens p)) * N.of_nat (length (path_tokens p)).
Definition matching_path (path : list str) (p : docpath) : Prop := accepts (path_tokens p) path.

(** The rule paths that take part: they match and have fewer than 64 exact steps. The rank of
    a rule path is its specificity in 64 bits. *)
Definition candidate (path : list str) (p : docpath) : Prop :=
  matching_path path p /\ (exact_steps (path_tokens p) < 64)%nat.
Definition rank (p : docpath) : N := specificity p mod 2 ^ 64.
(** The rules of an entry as they are applied at a location. *)
Definition applied (path : list str) (e : docpath * rulelist) : rulelist :=
  mkRules (rl_rules (snd e)) (rl_logic (snd e)) (Nat.ltb (length (path_tokens (fst e))) (length path)).
(** The entries of the greatest rank. *)
Definition winner (c : category) (path : list str) (e : docpath * rulelist) : Prop :=
  In e (cat_rules c) /\ candidate path (fst e) /\
  forall e', In e' (cat_rules c) -> candidate path (fst e') -> rank (fst e') <= rank (fst e).

(** The rules of a list, all (AND) or at least one (OR) of them. *)
Definition combined (l : logic) (rs : list rule) (holds : rule -> Prop) : Prop :=
  match l with
  | And => forall r, In r rs -> holds r
  | Or => exists r, In r rs /\ holds r
  end.

(** * Restrictions under which a collection survives the V3/V4 form *)
Definition coll_entry_ok (w : world) (n : category_name) (pr : docpath * rulelist) : Prop :=
  rl_rules (snd pr) <> [] /\ Forall (writable w) (rl_rules (snd pr)) /\
  match n with
  | CPath => fst pr = path_empty
  | CHeader | CQuery => exists f, path_tokens (fst pr) = [TRoot; TField f] /\ f <> S_ "matchers"
  | _ => path_new (uni_alpha w) (uni_numeric w) (path_expr (fst pr)) = Ok (fst pr) /\
         path_expr (fst pr) <> S_ "matchers"
  end.
Definition collection_ok (w : world) (m : matching_rules) : Prop :=
  NoDup (map fst m) /\
  Forall (fun nc => cat_name (snd nc) = fst nc /\
                    NoDup (map (fun pr => path_tokens (fst pr)) (cat_rules (snd nc))) /\
                    Forall (coll_entry_ok w (fst nc)) (cat_rules (snd nc))) m.

(** * What the V2 form keeps: the first rule of each path *)
Definition first_rule_entry (pr pr' : docpath * rulelist) : Prop :=
  path_tokens (fst pr) = path_tokens (fst pr') /\
  exists r rest r', rl_rules (snd pr) = r :: rest /\ rl_rules (snd pr') = [r'] /\ same_rule r r'.
(** A body path text with a single dollar sign, at its start. *)
Definition one_dollar (s : str) : Prop := exists rest, s = S_ "$" ++ rest /\ ~ In 36 rest.

(** * No status code rule, and all paths in printed form, anywhere in a rule *)
Definition plain_here (r : rule) : Prop :=
  match r with
  | RStatusCode _ => False
  | RArrayContains vs => Forall (fun v => Forall (fun pr => path_expr (fst pr) = build_expr (path_tokens (fst pr))) (cat_rules (snd v))) vs
  | _ => True
  end.
Definition plain_rule : rule -> Prop := rule_all plain_here.
