(** Which collections of matching rules a V2 file can hold, and what comes back (C12). *)
From Coq Require Import Ascii String List Arith NArith Lia Bool Permutation.
From Verif Require Import Base PathExp SpecPath Json MatchingRules SpecRules.
Import ListNotations.
Open Scope N_scope.

(** The rules of a category, whatever the order of the categories. *)
Definition rules_in (n : category_name) (m : matching_rules) : list (docpath * rulelist) :=
  flat_map (fun nc => if cat_eqb (fst nc) n then cat_rules (snd nc) else []) m.

(** A name that, read as a path expression, is the field of that name. *)
Definition simple_name (w : world) (f : str) : Prop :=
  plain_name f /\ path_new (uni_alpha w) (uni_numeric w) f = Ok (mkPath [TRoot; TField f] f).
(** A rule of the request's path, of a header or query parameter with a simple name, or of a body path without further
    dollar signs. The other categories do not have a V2 form that can be read. *)
Definition v2_place (w : world) (n : category_name) (p : docpath) : Prop :=
  match n with
  | CPath => p = path_empty
  | CHeader | CQuery => exists f, path_tokens p = [TRoot; TField f] /\ simple_name w f
  | CBody => path_new (uni_alpha w) (uni_numeric w) (path_expr p) = Ok p /\ one_dollar (path_expr p)
  | _ => False
  end.
Definition v2_entry (w : world) (n : category_name) (pr : docpath * rulelist) : Prop :=
  (exists r rest, rl_rules (snd pr) = r :: rest /\ writable w r) /\ v2_place w n (fst pr).
Definition v2_collection (w : world) (m : matching_rules) : Prop :=
  NoDup (map fst m) /\
  Forall (fun nc => cat_name (snd nc) = fst nc /\
                    NoDup (map (fun pr => path_tokens (fst pr)) (cat_rules (snd nc))) /\
                    Forall (v2_entry w (fst nc)) (cat_rules (snd nc))) m.
(** In every category, at every place, the first rule. *)
Definition same_first_rules (a b : matching_rules) : Prop :=
  NoDup (map fst b) /\ Forall (fun nc => cat_name (snd nc) = fst nc) b /\
  forall n, exists perm, Permutation (rules_in n a) perm /\ Forall2 first_rule_entry perm (rules_in n b).
