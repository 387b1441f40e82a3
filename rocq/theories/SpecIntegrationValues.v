(** Specification of values given as texts to the FFI functions for paths, query
    parameters, headers, status codes and metadata. *)
From Coq Require Import String List NArith Bool.
From Verif Require Import Base PathExp Json MatchingRules Expr Generators RuleExpr SpecIntegration.
Import ListNotations.
Open Scope N_scope.

(** Rules for a path or a status apply to the whole of it; those of query parameters and headers to the given place. *)
Definition whole_value (n : category_name) : Prop := n = CPath \/ n = CStatus.
Definition listed_value (n : category_name) : Prop := n = CQuery \/ n = CHeader.

(** The place the rules are put: [place] itself, or, for paths and status codes, what is above it. *)
Definition above (p : docpath) : docpath := match parent p with Some q => q | None => path_root end.
Definition rule_place (n : category_name) (place target : docpath) : Prop :=
  (whole_value n -> target = above place) /\ (~ whole_value n -> target = place).

(** The rules of the name alone become those of its first value. *)
Definition first_renamed (name : docpath) (old new : category_ xrule) : Prop :=
  cat_name new = cat_name old /\
  match hm_get name (cat_rules old) with
  | None => forall p, hm_get p (cat_rules new) = hm_get p (cat_rules old)
  | Some rl =>
      hm_get name (cat_rules new) = None /\
      hm_get (push_index name 0) (cat_rules new) = Some rl /\
      forall p, path_expr p <> path_expr name -> path_expr p <> path_expr (push_index name 0) ->
        hm_get p (cat_rules new) = hm_get p (cat_rules old)
  end.

(** [example_at m v occs]: the example value of a matcher object. Only the elements of an array are read further. *)
Inductive example_at (w : world) (junk : str -> nat) (m : list (str * json)) : json -> list occurrence -> Prop :=
| ex_none : obj_get (S_ "value") m = None -> example_at w junk m JNull []
| ex_array l l' occs : obj_get (S_ "value") m = Some (JArr l) ->
    reading_items w junk (mkMode false true false) [] 0 l l' occs ->
    example_at w junk m (JArr l') occs
| ex_other v : obj_get (S_ "value") m = Some v -> (forall l, v <> JArr l) -> example_at w junk m v [].

(** The texts of an example value: those of the elements of an array. *)
Definition texts (w : world) (v : json) (r : str + list str) : Prop :=
  match v with
  | JArr l => exists ts, r = inr ts /\ Forall2 (fun x t => t = json_to_string w x) l ts
  | _ => r = inl (json_to_string w v)
  end.
