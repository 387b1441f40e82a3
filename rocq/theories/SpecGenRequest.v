(** Vocabulary for what generating does to a request, response or message, one name at a time. *)
From Coq Require Import String List NArith Bool.
From Verif Require Import Base PathExp Json MatchingRules Headers Query ContentType JsonCompare Http Expr Generators GenApply.
Import ListNotations.
Open Scope N_scope.

(** The generators, in the order they are applied, that apply in the mode. *)
Definition applicable (mode : test_mode) (gs : gen_map) : gen_map :=
  filter (fun pg => match snd pg, mode with
                    | GProviderState _ _, Consumer | GMockServerURL _ _, Provider => false
                    | _, _ => true
                    end) gs.
(** Those for the header, query parameter or metadata entry of a name. *)
Definition for_name (name : str) (gs : gen_map) : gen_map :=
  filter (fun pg => match first_field (fst pg) with Some f => str_eqb f name | None => false end) gs.

(** The values of a name in a map that may be missing. *)
Definition entry {A} (name : str) (m : option (list (str * A))) : option A :=
  match m with Some m => obj_get name m | None => None end.

(** One generator on the values of a header: a single value, made from the first one;
    a header that is not there counts as empty and is added. *)
Definition header_once (gen : str -> option str) (old : option (list str)) : option (list str) :=
  match gen (match old with Some (v :: _) => v | _ => [] end) with
  | Some v => Some [v]
  | None => old
  end.
(** One generator on the values of a query parameter: each value is replaced; a parameter that is not there is added. *)
Fixpoint values_once (gen : nat -> str -> option str) (n : nat) (vs : list (option str)) : list (option str) :=
  match vs with
  | [] => []
  | v :: vs' =>
      match gen n (match v with Some s => s | None => [] end) with Some s => Some s | None => v end :: values_once gen (S n) vs'
  end.
Definition query_once (gen : nat -> str -> option str) (old : option (list (option str))) : option (list (option str)) :=
  match old with
  | Some vs => Some (values_once gen 0 vs)
  | None => match gen O [] with Some s => Some [Some s] | None => None end
  end.
(** One generator on a value. *)
Definition value_once {A} (gen : A -> option A) (old : A) : A :=
  match gen old with Some v => v | None => old end.
(** One generator on a metadata entry; one that is not there counts as null. *)
Definition meta_once (gen : json -> option json) (old : option json) : option json :=
  match gen (match old with Some v => v | None => JNull end) with Some v => Some v | None => old end.

(** A form parameter is addressed by a key when the key is the path of its name, or that
    with its number among the parameters of the same name. *)
Definition form_addressed (k : docpath) (before : list (str * str)) (name : str) : Prop :=
  path_expr k = path_expr (join path_root name) \/
  path_expr k = path_expr (join_index (join path_root name) (N.of_nat (length (filter (fun nv => str_eqb name (fst nv)) before)))).

(** The generator of the last array-contains rule of a list, among those with a variant that has generators
    ([vg]: the generators of a variant). *)
Fixpoint last_array_contains (vg : N -> category -> gen_map) (rs : list rule) : option generator :=
  match rs with
  | [] => None
  | r :: rs' =>
      match last_array_contains vg rs' with
      | Some g => Some g
      | None =>
          match r with
          | RArrayContains vs =>
              if existsb (fun v => match vg (fst v) (snd v) with [] => false | _ => true end) vs
              then Some (GArrayContains (map (fun v => (fst v, snd v, vg (fst v) (snd v))) vs)) else None
          | _ => None
          end
      end
  end.
Definition array_contains_at (vg : N -> category -> gen_map) (c : category) (p : docpath) : option generator :=
  match hm_get p (cat_rules c) with Some rl => last_array_contains vg (rl_rules rl) | None => None end.
(** The rules that belong to a category of generators. *)
Definition rules_beside (c : gcat) : category_name :=
  match c with
  | GcMethod => CMethod | GcPath => CPath | GcHeader => CHeader | GcQuery => CQuery
  | GcBody => CBody | GcStatus => CStatus | GcMetadata => CMetadata
  end.
