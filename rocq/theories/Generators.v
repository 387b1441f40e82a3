(** Model of rust/pact_models/src/generators/mod.rs: the generators, their JSON
    form and collections of them. *)
From Coq Require Import String List NArith ZArith Bool.
From Verif Require Import Base PathExp Json MatchingRules Expr.
Import ListNotations.
Open Scope N_scope.

(** generators/mod.rs:71-82 [enum UuidFormat], 84-93 [Display], 104-115 [FromStr]. *)
Inductive uuid_format := USimple | ULower | UUpper | UUrn.
Definition uuid_show (f : uuid_format) : str :=
  match f with
  | USimple => S_ "simple"
  | ULower => S_ "lower-case-hyphenated"
  | UUpper => S_ "upper-case-hyphenated"
  | UUrn => S_ "URN"
  end.
Definition uuid_parse (s : str) : option uuid_format :=
  if str_eqb s (S_ "simple") then Some USimple
  else if str_eqb s (S_ "lower-case-hyphenated") then Some ULower
  else if str_eqb s (S_ "upper-case-hyphenated") then Some UUpper
  else if str_eqb s (S_ "URN") then Some UUrn
  else None.

(** generators/mod.rs:118-147 [enum Generator]. *)
Inductive generator :=
| GRandomInt (min max : Z)                  (* i32 *)
| GUuid (format : option uuid_format)
| GRandomDecimal (digits : N)               (* u16 *)
| GRandomHexadecimal (digits : N)           (* u16 *)
| GRandomString (size : N)                  (* u16 *)
| GRegex (regex : str)
| GDate (format expression : option str)
| GTime (format expression : option str)
| GDateTime (format expression : option str)
| GRandomBoolean
| GProviderState (expression : str) (type : option data_type)
| GMockServerURL (example regex : str)
| GArrayContains (variants : list (N * category * list (docpath * generator))).

(** The ranges of the Rust types. *)
Definition i32_range (z : Z) : Prop := (- 2147483648 <= z < 2147483648)%Z.
Definition u16_range (n : N) : Prop := n < 65536.

Definition opt_field (k : str) (v : option str) : list (str * json) :=
  match v with Some s => [(k, JStr s)] | None => [] end.

(** generators/mod.rs:151-197 [to_json]; objects are written in key order. *)
Definition gen_to_json (g : generator) : option json :=
  match g with
  | GRandomInt min max => Some (JObj [(S_ "max", json_of_i64 max); (S_ "min", json_of_i64 min); (S_ "type", JStr (S_ "RandomInt"))])
  | GUuid (Some f) => Some (JObj [(S_ "format", JStr (uuid_show f)); (S_ "type", JStr (S_ "Uuid"))])
  | GUuid None => Some (JObj [(S_ "type", JStr (S_ "Uuid"))])
  | GRandomDecimal d => Some (JObj [(S_ "digits", JNum (PosInt d)); (S_ "type", JStr (S_ "RandomDecimal"))])
  | GRandomHexadecimal d => Some (JObj [(S_ "digits", JNum (PosInt d)); (S_ "type", JStr (S_ "RandomHexadecimal"))])
  | GRandomString d => Some (JObj [(S_ "size", JNum (PosInt d)); (S_ "type", JStr (S_ "RandomString"))])
  | GRegex r => Some (JObj [(S_ "regex", JStr r); (S_ "type", JStr (S_ "Regex"))])
  | GDate f e => Some (JObj (opt_field (S_ "expression") e ++ opt_field (S_ "format") f ++ [(S_ "type", JStr (S_ "Date"))]))
  | GTime f e => Some (JObj (opt_field (S_ "expression") e ++ opt_field (S_ "format") f ++ [(S_ "type", JStr (S_ "Time"))]))
  | GDateTime f e => Some (JObj (opt_field (S_ "expression") e ++ opt_field (S_ "format") f ++ [(S_ "type", JStr (S_ "DateTime"))]))
  | GRandomBoolean => Some (JObj [(S_ "type", JStr (S_ "RandomBoolean"))])
  | GProviderState e (Some d) =>
      Some (JObj [(S_ "dataType", data_type_to d); (S_ "expression", JStr e); (S_ "type", JStr (S_ "ProviderState"))])
  | GProviderState e None => Some (JObj [(S_ "expression", JStr e); (S_ "type", JStr (S_ "ProviderState"))])
  | GMockServerURL ex re =>
      Some (JObj [(S_ "example", JStr ex); (S_ "regex", JStr re); (S_ "type", JStr (S_ "MockServerURL"))])
  | GArrayContains _ => None
  end.

(** [i64 as i32], [u64 as u16]. *)
Definition wrap_i32 (z : Z) : Z := ((z + 2147483648) mod 4294967296 - 2147483648)%Z.
Definition wrap_u16 (n : N) : N := n mod 65536.

(** json_utils.rs:25-37 [i32::json_to_number]. *)
Definition json_to_i32 (m : list (str * json)) (field : str) (default : Z) : Z :=
  match obj_get field m with
  | Some (JNum (PosInt n)) => if n <? 9223372036854775808 then wrap_i32 (Z.of_N n) else default
  | Some (JNum (NegInt z)) => wrap_i32 z
  | _ => default
  end.
(** json_utils.rs:39-51 [u16::json_to_number]. *)
Definition json_to_u16 (m : list (str * json)) (field : str) (default : N) : N :=
  match obj_get field m with
  | Some (JNum (PosInt n)) => wrap_u16 n
  | _ => default
  end.

(** generators/mod.rs:417-423 [enum GeneratorCategory]. *)
Inductive gcat := GcMethod | GcPath | GcHeader | GcQuery | GcBody | GcStatus | GcMetadata.
Definition gcat_index (c : gcat) : N :=
  match c with
  | GcMethod => 0 | GcPath => 1 | GcHeader => 2 | GcQuery => 3 | GcBody => 4 | GcStatus => 5 | GcMetadata => 6
  end.
Definition gcat_eqb (a b : gcat) : bool := gcat_index a =? gcat_index b.
(** 443-455 [Into<&str>]. *)
Definition gcat_name (c : gcat) : str :=
  match c with
  | GcMethod => S_ "method" | GcPath => S_ "path" | GcHeader => S_ "header" | GcQuery => S_ "query"
  | GcBody => S_ "body" | GcStatus => S_ "status" | GcMetadata => S_ "metadata"
  end.

(** 510-514 [Generators]: a map of maps. *)
Definition gen_map := list (docpath * generator).
Definition generators := list (gcat * gen_map).

(** [HashMap::insert]: the key of an existing entry stays. *)
Fixpoint hm_insert {A} (k : docpath) (v : A) (m : list (docpath * A)) : list (docpath * A) :=
  match m with
  | [] => [(k, v)]
  | (k', v') :: m' => if path_eqb k k' then (k', v) :: m' else (k', v') :: hm_insert k v m'
  end.
Fixpoint cats_get (c : gcat) (g : generators) : option gen_map :=
  match g with
  | [] => None
  | (c', m) :: g' => if gcat_eqb c c' then Some m else cats_get c g'
  end.
(** [entry(category).or_insert(HashMap::new())] followed by an update of it. *)
Fixpoint cats_update (c : gcat) (f : gen_map -> gen_map) (g : generators) : generators :=
  match g with
  | [] => [(c, f [])]
  | (c', m) :: g' => if gcat_eqb c c' then (c', f m) :: g' else (c', m) :: cats_update c f g'
  end.

(** 630-638 [add_generator_with_subcategory], 625-627 [add_generator], 641-648 [add_generators]. *)
Definition add_generator_at (c : gcat) (p : docpath) (x : generator) (g : generators) : generators :=
  cats_update c (hm_insert p x) g.
Definition add_generator (c : gcat) (x : generator) (g : generators) : generators :=
  add_generator_at c path_empty x g.
Definition add_generators (other : generators) (g : generators) : generators :=
  fold_left (fun g cm => cats_update (fst cm) (fun m => fold_left (fun m pg => hm_insert (fst pg) (snd pg) m) (snd cm) m) g) other g.

(** 518-526 [is_empty], [is_not_empty]. *)
Definition gens_is_empty (g : generators) : bool :=
  forallb (fun cm => match snd cm with [] => true | _ => false end) g.

(** 583-620: the JSON of one category. *)
Definition single_key (c : gcat) : bool := match c with GcPath | GcMethod | GcStatus => true | _ => false end.
Definition named_key (c : gcat) : bool := match c with GcHeader | GcQuery => true | _ => false end.
Definition or_else {A} (a b : option A) : option A := match a with Some _ => a | None => b end.
Definition gen_key (c : gcat) (p : docpath) : str :=
  if named_key c then match first_field p with Some f => f | None => path_expr p end else path_expr p.
Definition gen_map_to_json (c : gcat) (m : gen_map) : list (str * json) :=
  fold_left (fun acc pg => match gen_to_json (snd pg) with
                           | Some j => obj_insert (gen_key c (fst pg)) j acc
                           | None => acc
                           end) m [].
(** 580-622 [to_json]. *)
Definition gens_to_map (g : generators) : list (str * json) :=
  fold_left (fun acc cm =>
    match cm with
    | (c, m) =>
        if single_key c then
          match or_else (hm_get path_empty m) (hm_get path_root m) with
          | Some x => match gen_to_json x with Some j => obj_insert (gcat_name c) j acc | None => acc end
          | None => acc
          end
        else obj_insert (gcat_name c) (JObj (gen_map_to_json c m)) acc
    end) g [].
Definition gens_to_json (g : generators) : json := JObj (gens_to_map g).

Section Reading.
Variable w : world.

(** json_utils.rs:104-106 [get_field_as_string]. *)
Definition get_field_as_string (k : str) (m : list (str * json)) : option str :=
  option_map (json_to_string w) (obj_get k m).
Definition or_default (o : option str) : str := match o with Some s => s | None => [] end.

(** generators/mod.rs:201-232 [from_map]. *)
Definition gen_from_map (ty : str) (m : list (str * json)) : option generator :=
  if str_eqb ty (S_ "RandomInt") then Some (GRandomInt (json_to_i32 m (S_ "min") 0) (json_to_i32 m (S_ "max") 10))
  else if str_eqb ty (S_ "Uuid") then
    match obj_get (S_ "format") m with
    | Some f => Some (GUuid (uuid_parse (json_to_string w f)))
    | None => Some (GUuid None)
    end
  else if str_eqb ty (S_ "RandomDecimal") then Some (GRandomDecimal (json_to_u16 m (S_ "digits") 10))
  else if str_eqb ty (S_ "RandomHexadecimal") then Some (GRandomHexadecimal (json_to_u16 m (S_ "digits") 10))
  else if str_eqb ty (S_ "RandomString") then Some (GRandomString (json_to_u16 m (S_ "size") 10))
  else if str_eqb ty (S_ "Regex") then option_map (fun v => GRegex (json_to_string w v)) (obj_get (S_ "regex") m)
  else if str_eqb ty (S_ "Date") then Some (GDate (get_field_as_string (S_ "format") m) (get_field_as_string (S_ "expression") m))
  else if str_eqb ty (S_ "Time") then Some (GTime (get_field_as_string (S_ "format") m) (get_field_as_string (S_ "expression") m))
  else if str_eqb ty (S_ "DateTime") then Some (GDateTime (get_field_as_string (S_ "format") m) (get_field_as_string (S_ "expression") m))
  else if str_eqb ty (S_ "RandomBoolean") then Some GRandomBoolean
  else if str_eqb ty (S_ "ProviderState") then
    option_map (fun f => GProviderState (json_to_string w f) (option_map data_type_from (obj_get (S_ "dataType") m)))
               (obj_get (S_ "expression") m)
  else if str_eqb ty (S_ "MockServerURL") then
    Some (GMockServerURL (or_default (get_field_as_string (S_ "example") m)) (or_default (get_field_as_string (S_ "regex") m)))
  else None.

(** 425-440 [FromStr for GeneratorCategory]. *)
Definition gcat_parse (s : str) : option gcat :=
  let l := to_lower w s in
  if str_eqb l (S_ "method") then Some GcMethod
  else if str_eqb l (S_ "path") then Some GcPath
  else if str_eqb l (S_ "header") then Some GcHeader
  else if str_eqb l (S_ "query") then Some GcQuery
  else if str_eqb l (S_ "body") then Some GcBody
  else if str_eqb l (S_ "status") then Some GcStatus
  else if str_eqb l (S_ "metadata") then Some GcMetadata
  else None.

(** 559-578 [parse_generator_from_map]; entries that cannot be read are left out with a warning. *)
Definition parse_generator (c : gcat) (m : list (str * json)) (sub : option docpath) (g : generators) : generators :=
  match obj_get (S_ "type") m with
  | Some (JStr ty) =>
      match gen_from_map ty m with
      | Some x => match sub with Some p => add_generator_at c p x g | None => add_generator c x g end
      | None => g
      end
  | _ => g
  end.

(** 529-557 [load_from_map]: one category, then all of them. *)
Definition load_sub (c : gcat) (g : generators) (kv : str * json) : outcome generators rule_error :=
  match snd kv with
  | JObj m =>
      if named_key c then Ok (parse_generator c m (Some (push_field path_root (fst kv))) g)
      else bind (path_new_w w (fst kv)) (fun p => Ok (parse_generator c m (Some p) g))
  | _ => Ok g
  end.
Definition load_cat (g : generators) (kv : str * json) : outcome generators rule_error :=
  match snd kv with
  | JObj m =>
      match gcat_parse (fst kv) with
      | Some c =>
          if single_key c then Ok (parse_generator c m None g)
          else foldM (load_sub c) m g
      | None => Ok g
      end
  | _ => Ok g
  end.
Definition load_from_map (g : generators) (m : list (str * json)) : outcome generators rule_error :=
  foldM load_cat m g.

(** 702-716 [generators_from_json]. *)
Definition generators_from_json (value : json) : outcome generators rule_error :=
  match json_get (S_ "generators") value with
  | Some (JObj m) => load_from_map [] m
  | _ => Ok []
  end.
End Reading.
