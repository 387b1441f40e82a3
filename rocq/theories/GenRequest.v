(** Model of applying generators to requests, responses and messages:
    rust/pact_matching/src/lib.rs:2278-2405 [generate_request], [generate_response],
    rust/pact_matching/src/generators/mod.rs:113-262 [apply_generators_to_sync_message], [apply_generators_to_async_message], [generate_message],
    rust/pact_matching/src/generators/bodies.rs:22-119 [generators_process_body] (without plugins),
    rust/pact_models/src/http_parts.rs:105-119 [build_generators],
    rust/pact_models/src/generators/form_urlencoded.rs:18-62.

    What the generators produce is an argument ([outcomes]); a generator that panics is outside this file. *)
From Coq Require Import String List Arith NArith Bool.
From Verif Require Import Base PathExp Json Text MatchingRules Headers Query ContentType JsonCompare Http Expr Generators GenApply.
Import ListNotations.
Open Scope N_scope.

(** What a generator gives for a text, a JSON value, a status code; the number is that of the call for the same key.
    [out_variants]: the generators kept with a variant of an array-contains rule, which the model of rules leaves out. *)
Record outcomes := mkOut {
  out_text : gcat -> docpath -> generator -> nat -> str -> option str;
  out_json : docpath -> generator -> nat -> json -> option json;
  out_status : docpath -> generator -> N -> option N;
  out_meta : docpath -> generator -> json -> option json;
  out_variants : N -> category -> gen_map }.

(** matchingrules/mod.rs:236-252 [has_generators], [generators]; 1172-1184: the generator of an
    array-contains rule, if one of its variants has generators. *)
Definition rule_generators (out : outcomes) (r : rule) : list generator :=
  match r with
  | RArrayContains vs =>
      if existsb (fun v => match out_variants out (fst v) (snd v) with [] => false | _ => true end) vs
      then [GArrayContains (map (fun v => (fst v, snd v, out_variants out (fst v) (snd v))) vs)]
      else []
  | _ => []
  end.
Definition category_generators (out : outcomes) (c : category) : gen_map :=
  fold_left (fun m pr =>
    fold_left (fun m r => fold_left (fun m x => hm_insert (fst pr) x m) (rule_generators out r) m) (rl_rules (snd pr)) m)
    (cat_rules c) [].

(** generators/mod.rs:463-475. *)
Definition gcat_rules (c : gcat) : category_name :=
  match c with
  | GcMethod => CMethod | GcPath => CPath | GcHeader => CHeader | GcQuery => CQuery
  | GcBody => CBody | GcStatus => CStatus | GcMetadata => CMetadata
  end.

(** http_parts.rs:105-119 [build_generators]. *)
Definition insert_all (l : gen_map) (m : gen_map) : gen_map := fold_left (fun m pg => hm_insert (fst pg) (snd pg) m) l m.
Definition build_generators (out : outcomes) (g : generators) (rules : matching_rules) (c : gcat) : gen_map :=
  let own := insert_all (match cats_get c g with Some m => m | None => [] end) [] in
  insert_all (category_generators out (rules_for (gcat_rules c) rules)) own.

Section Generate.
Variable w : world.
Variable x : externals.
Variable out : outcomes.
Variable form_show : list (str * str) -> option (list N). (* serde_urlencoded::to_string *)
Variable mode : test_mode.

(** generators/mod.rs:689-699 [apply_generators]. *)
Definition apply_generators {A} (gs : gen_map) (step : A -> docpath -> generator -> A) (a : A) : A :=
  fold_left (fun a pg => if corresponds_to_mode (snd pg) mode then step a (fst pg) (snd pg) else a) gs a.

(** lib.rs:2285-2293. *)
Definition path_step (p : str) (k : docpath) (g : generator) : str :=
  match out_text out GcPath k g O p with Some v => v | None => p end.

(** lib.rs:2295-2319 (and 2377-2401 for responses). [generate_value] for a list of values takes the
    first one (generators/mod.rs:1027-1036). *)
Definition header_step (hs : option hmap) (k : docpath) (g : generator) : option hmap :=
  match first_field k with
  | None => hs
  | Some header =>
      match hs with
      | Some m =>
          match obj_get header m with
          | Some vs => match out_text out GcHeader k g O (match vs with v :: _ => v | [] => [] end) with
                       | Some v => Some (sm_insert header [v] m)
                       | None => Some m
                       end
          | None => match out_text out GcHeader k g O [] with
                    | Some v => Some (sm_insert header [v] m)
                    | None => Some m
                    end
          end
      | None => match out_text out GcHeader k g O [] with
                | Some v => Some [(header, [v])]
                | None => None
                end
      end
  end.

(** lib.rs:2321-2347. *)
Definition query_values (k : docpath) (g : generator) (vs : list (option str)) : list (option str) :=
  map (fun iv => match out_text out GcQuery k g (fst iv) (match snd iv with Some v => v | None => [] end) with
                 | Some v => Some v
                 | None => snd iv
                 end) (combine (seq 0 (length vs)) vs).
Definition query_step (q : option query_map) (k : docpath) (g : generator) : option query_map :=
  match first_field k with
  | None => q
  | Some param =>
      match q with
      | Some m =>
          match obj_get param m with
          | Some vs => Some (sm_insert param (query_values k g vs) m)
          | None => match out_text out GcQuery k g O [] with
                    | Some v => Some (sm_insert param [Some v] m)
                    | None => Some m
                    end
          end
      | None => match out_text out GcQuery k g O [] with
                | Some v => Some [(param, [Some v])]
                | None => None
                end
      end
  end.

(** form_urlencoded.rs:41-61 [apply_key]: the first parameter whose path, with or without its
    number among those of the same name, is the key. *)
Definition seen (name : str) (before : list str) : N := N.of_nat (length (filter (str_eqb name) before)).
Fixpoint form_apply (k : docpath) (g : generator) (before : list str) (params : list (str * str)) : list (str * str) :=
  match params with
  | [] => []
  | (name, v) :: rest =>
      let p := join path_root name in
      if path_eqb k p || path_eqb k (join_index p (seen name before)) then
        (name, match out_text out GcBody k g O v with Some v' => v' | None => v end) :: rest
      else (name, v) :: form_apply k g (before ++ [name]) rest
  end.

Definition json_type : content_type := mkCT (S_ "application") (S_ "json") [] None.
Definition form_type : content_type := mkCT (S_ "application") (S_ "x-www-form-urlencoded") [] None.

(** bodies.rs:22-119 [generators_process_body]: XML is not supported (mod.rs:39-50), other types are left alone. *)
Definition process_body (b : body) (ct : content_type) (gs : gen_map) : body :=
  if is_json ct then
    match json_of_bytes x (body_bytes b) with
    | Some v => BPresent (utf8 (json_show w (process_json mode (map (fun pg => (fst pg, snd pg, out_json out (fst pg) (snd pg))) gs) v)))
                         (Some json_type) None
    | None => b
    end
  else if is_xml ct then b
  else if is_form_urlencoded ct then
    match form_of_bytes x (body_bytes b) with
    | Some params =>
        match form_show (apply_generators gs (fun ps k g => form_apply k g [] ps) params) with
        | Some s => BPresent s (Some form_type) None
        | None => b
        end
    | None => b
    end
  else b.
(** lib.rs:2349-2357, 2403-2411. *)
Definition body_generated (b : body) (ct : content_type) (gs : gen_map) : body :=
  match gs with
  | [] => b
  | _ => if body_present b then process_body b ct gs else b
  end.

(** lib.rs:2281-2361 [generate_request]. The tests for an empty map of generators change nothing: the loop over it does nothing. *)
Definition generate_request (g : generators) (r : request) : request :=
  let build := build_generators out g (req_rules r) in
  let path := apply_generators (build GcPath) path_step (req_path r) in
  let headers := apply_generators (build GcHeader) header_step (req_headers r) in
  let query := apply_generators (build GcQuery) query_step (req_query r) in
  mkReq (req_method r) path query headers
        (body_generated (req_body r) (part_content_type w x (mkPart headers (req_body r))) (build GcBody))
        (req_rules r).

(** lib.rs:2363-2415 [generate_response]. *)
Definition status_step (s : N) (k : docpath) (g : generator) : N :=
  match out_status out k g s with Some v => v | None => s end.
Definition generate_response (g : generators) (r : response) : response :=
  let build := build_generators out g (resp_rules r) in
  let status := apply_generators (build GcStatus) status_step (resp_status r) in
  let headers := apply_generators (build GcHeader) header_step (resp_headers r) in
  mkResp status headers
         (body_generated (resp_body r) (part_content_type w x (mkPart headers (resp_body r))) (build GcBody))
         (resp_rules r).

(** generators/mod.rs:222-262 [generate_message]; how the content type of a message follows from its contents and
    metadata (message.rs) is an argument. *)
Variable message_type : body -> list (str * json) -> content_type.
Definition meta_step (m : list (str * json)) (k : docpath) (g : generator) : list (str * json) :=
  match first_field k with
  | None => m
  | Some name =>
      match out_meta out k g (match obj_get name m with Some v => v | None => JNull end) with
      | Some v => sm_insert name v m
      | None => m
      end
  end.
Definition generate_message (g : generators) (m : message) : message :=
  let build := build_generators out g (msg_rules m) in
  let meta := apply_generators (build GcMetadata) meta_step (msg_metadata m) in
  mkMsg (body_generated (msg_contents m) (message_type (msg_contents m) meta) (build GcBody)) meta (msg_rules m).

(** generators/mod.rs:116-181 [apply_generators_to_sync_message]: each part on its own, with its own generators. *)
Definition generate_sync_message (parts : (generators * message) * list (generators * message)) : message * list message :=
  (generate_message (fst (fst parts)) (snd (fst parts)), map (fun p => generate_message (fst p) (snd p)) (snd parts)).
(** generators/mod.rs:184-220 [apply_generators_to_async_message]: the old value and the content type are those of the original message. *)
Definition async_meta_step (original : list (str * json)) (m : list (str * json)) (k : docpath) (g : generator) : list (str * json) :=
  match first_field k with
  | None => m
  | Some name =>
      match out_meta out k g (match obj_get name original with Some v => v | None => JNull end) with
      | Some v => sm_insert name v m
      | None => m
      end
  end.
Definition generate_async_message (g : generators) (m : message) : message :=
  let build := build_generators out g (msg_rules m) in
  mkMsg (body_generated (msg_contents m) (message_type (msg_contents m) (msg_metadata m)) (build GcBody))
        (apply_generators (build GcMetadata) (async_meta_step (msg_metadata m)) (msg_metadata m)) (msg_rules m).
End Generate.
