(** Model of rust/pact_ffi/src/mock_server/bodies.rs: the JSON that language
    integrations pass for bodies, in which matching rules and generators are
    written next to the example values ("pact:matcher:type").

    Logging and the texts of errors are not modelled; a rule that cannot be read
    is [RErr]. *)
From Coq Require Import String List NArith ZArith Lia Bool.
From Verif Require Import Base PathExp Json MatchingRules Expr Generators RuleExpr.
Import ListNotations.
Open Scope N_scope.

Definition xcategory := category_ xrule.

(** matchingrules/mod.rs:974-982 [add_rule] over rules with generators; see [hm_push]. *)
Fixpoint xhm_push (k : docpath) (r : xrule) (l : logic) (m : list (docpath * rulelist_ xrule))
  : list (docpath * rulelist_ xrule) :=
  match m with
  | [] => [(k, mkRules [r] l false)]
  | (k', rl) :: m' =>
      if path_eqb k k' then (k', mkRules (rl_rules rl ++ [r]) (rl_logic rl) (rl_cascaded rl)) :: m'
      else (k', rl) :: xhm_push k r l m'
  end.
Definition x_add_rule (c : xcategory) (k : docpath) (r : xrule) (l : logic) : xcategory :=
  mkCat (cat_name c) (xhm_push k r l (cat_rules c)).

(** matchingrules/mod.rs:479-485 [is_values_matcher]. *)
Definition x_is_values_matcher (r : xrule) : bool :=
  match r with
  | XRule a => is_values_matcher a
  | XEachValue _ => true
  | _ => false
  end.

(** mock_server/mod.rs:708-721 [generator_category]. *)
Definition generator_category (n : category_name) : gcat :=
  match n with
  | CBody => GcBody
  | CHeader => GcHeader
  | CPath => GcPath
  | CQuery => GcQuery
  | CMetadata => GcMetadata
  | CStatus => GcStatus
  | _ => GcBody
  end.

(** The two [&mut] arguments of every function of the file. *)
Record store := mkStore { st_rules : xcategory; st_gens : generators }.

(** A result that may be an [Err], or a panic below. *)
Definition matcher_type : str := S_ "pact:matcher:type".
Definition generator_type : str := S_ "pact:generator:type".

Section Integration.
Variable w : world.
Variable junk : str -> nat.

(** [MatchingRule::create(type, attributes)] on an object of the document. *)
Definition create_rule (ty : str) (m : list (str * json)) : outcome xrule unit :=
  match rule_create w (rj_for w (JObj m)) ty m with
  | Ok r => Ok (XRule r)
  | Err _ => Err tt
  | Panic => Panic
  end.

(** bodies.rs:195-215: one element of an array of matchers. *)
Definition rule_of_element (v : json) : outcome xrule unit :=
  match v with
  | JObj m =>
      match obj_get matcher_type m with
      | Some t => create_rule (json_to_string w t) m
      | None => Err tt
      end
  | _ => Err tt
  end.

(** 221-232: the rules of a definition, references replaced by type matchers. *)
Definition resolve_item (m : list (str * json)) (r : xrule + str) : outcome xrule unit :=
  match r with
  | inl a => Ok a
  | inr name => match obj_get name m with Some _ => Ok (XRule RType) | None => Err tt end
  end.

(** 189-246 [matchers_from_integration_json]. *)
Definition matchers_from_integration_json (m : list (str * json)) : outcome (list xrule * option generator) unit :=
  match obj_get matcher_type m with
  | Some (JArr arr) => bind (mapM rule_of_element arr) (fun rules => Ok (rules, None))
  | Some value =>
      let val := json_to_string w value in
      if negb (str_eqb val (S_ "eachKey")) && negb (str_eqb val (S_ "eachValue")) && negb (str_eqb val (S_ "notEmpty"))
         && is_matcher_def junk val
      then
        match parse_matcher_def junk w val with
        | Some d => bind (mapM (resolve_item m) (x_rules d)) (fun rules => Ok (rules, x_gen d))
        | None => Err tt
        end
      else bind (create_rule val m) (fun r => Ok ([r], None))
  | None => Ok ([], None)
  end.

(** 99-102. *)
Definition is_array_contains (v : json) : bool :=
  match v with
  | JStr s => str_eqb s (S_ "arrayContains") || str_eqb s (S_ "array-contains")
  | _ => false
  end.

Definition add_gen (p : docpath) (g : generator) (st : store) : store :=
  mkStore (st_rules st) (add_generator_at (generator_category (cat_name (st_rules st))) p g (st_gens st)).
Definition add_gen_opt (p : docpath) (g : option generator) (st : store) : store :=
  match g with Some x => add_gen p x st | None => st end.

(** [starts_with("pact:")]. *)
Definition is_pact_key (k : str) : bool := starts_with (S_ "pact:") k.

(** The call of every site below: objects, arrays and other values. *)
Definition recurse := bool -> bool -> bool -> docpath -> json -> store -> outcome (json * store) unit.

Section Step.
Variable rec : recurse.

(** Elements in order, with their position; each may change the store. *)
Fixpoint items_in_order (f : N -> json -> store -> outcome (json * store) unit) (i : N) (l : list json) (st : store)
  : outcome (list json * store) unit :=
  match l with
  | [] => Ok ([], st)
  | x :: l' =>
      bind (f i x st) (fun r => bind (items_in_order f (i + 1) l' (snd r)) (fun r' => Ok (fst r :: fst r', snd r')))
  end.
Fixpoint entries_in_order (f : str -> json -> store -> outcome (json * store) unit) (m : list (str * json)) (st : store)
  : outcome (list (str * json) * store) unit :=
  match m with
  | [] => Ok ([], st)
  | (k, x) :: m' =>
      bind (f k x st) (fun r => bind (entries_in_order f m' (snd r)) (fun r' => Ok ((k, fst r) :: fst r', snd r')))
  end.

(** 31-55 [process_array]. *)
Definition process_array (array : list json) (path : docpath) (type_matcher skip_matchers : bool) (st : store)
  : outcome (json * store) unit :=
  bind (items_in_order (fun i val =>
          rec skip_matchers false skip_matchers (if type_matcher then push_star_index path else push_index path i) val)
        0 array st)
    (fun r => Ok (JArr (fst r), snd r)).

(** 104-129: the variants of an array-contains matcher, each with rules and generators of its own. *)
Fixpoint process_variants (i : N) (l : list json) : outcome (list (N * xcategory * gen_map) * list json) unit :=
  match l with
  | [] => Ok ([], [])
  | x :: l' =>
      bind (rec false false false path_root x (mkStore (mkCat CBody []) [])) (fun r =>
        bind (process_variants (i + 1) l') (fun r' =>
          Ok ((i, st_rules (snd r), match cats_get GcBody (st_gens (snd r)) with Some g => g | None => [] end) :: fst r',
              fst r :: snd r')))
  end.

(** 91-172 [process_matcher]; the inner [Err] is the error that is logged and gives [null]. *)
Definition matcher_result (obj : list (str * json)) (path : docpath) (skip_matchers : bool) (ty : json) (st : store)
  : outcome (outcome (list xrule * json) unit * store) unit :=
  if is_array_contains ty then
    match obj_get (S_ "variants") obj with
    | Some (JArr variants) =>
        bind (process_variants 0 variants) (fun r => Ok (Ok ([XContains (fst r)], JArr (snd r)), st))
    | _ => Ok (Err tt, st)
    end
  else
    match matchers_from_integration_json obj with
    | Ok (rules, generator) =>
        bind (match obj_get (S_ "value") obj with
              | Some inner => rec (existsb x_is_values_matcher rules) true skip_matchers path inner st
              | None => Ok (JNull, st)
              end)
          (fun r => Ok (Ok (rules, fst r), add_gen_opt path generator (snd r)))
    | Err _ => Ok (Err tt, st)
    | Panic => Panic
    end.
Definition process_matcher (obj : list (str * json)) (path : docpath) (skip_matchers : bool) (ty : json) (st : store)
  : outcome (json * store) unit :=
  bind (matcher_result obj path skip_matchers ty st) (fun r =>
    let st := snd r in
    let st := match obj_get generator_type obj with
              | Some gen => add_gen_opt path (gen_from_map w (json_to_string w gen) obj) st
              | None => st
              end in
    match fst r with
    | Ok (rules, value) =>
        Ok (value, mkStore (fold_left (fun c rule => x_add_rule c path rule And) rules (st_rules st)) (st_gens st))
    | _ => Ok (JNull, st)
    end).

(** 58-88 [process_object]. *)
Definition process_object (obj : list (str * json)) (path : docpath) (type_matcher : bool) (st : store)
  : outcome (json * store) unit :=
  match obj_get matcher_type obj with
  | Some ty => process_matcher obj path type_matcher ty st
  | None =>
      bind (entries_in_order (fun key val =>
              rec false false false (if type_matcher then join path (S_ "*") else join path key) val)
            (filter (fun kv => negb (is_pact_key (fst kv))) obj) st)
        (fun r => Ok (JObj (fst r), snd r))
  end.
End Step.

(** The [match] of every call: an object with the flag [to], an array with the
    flags [ta] and [sa], anything else unchanged. The fuel bounds the depth. *)
Fixpoint process (fuel : nat) (to ta sa : bool) (path : docpath) (v : json) (st : store) : outcome (json * store) unit :=
  match fuel with
  | O => Err tt
  | S f =>
      match v with
      | JObj m => process_object (process f) m path to st
      | JArr l => process_array (process f) l path ta sa st
      | _ => Ok (v, st)
      end
  end.

(** 249-276 [process_json_value], before the value is printed; [process_json] does the same with a parsed text. *)
Definition process_json_value (body : json) (st : store) : outcome (json * store) unit :=
  process (json_depth body) false false false path_root body st.
End Integration.
