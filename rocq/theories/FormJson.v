(** Model of rust/pact_ffi/src/mock_server/form_urlencoded.rs (form bodies described by JSON with matching rules and generators),
    handles.rs:1757-1770 (where it is called), and of the encoding used by the serde_urlencoded crate (form_urlencoded:
    [byte_serialize], [Serializer::append_pair], [parse]).

    Simplified: the text printed by [process_json] is read again at once (lines 17-19); printing and reading a JSON value is taken
    to be the identity. Logging is left out. *)
From Coq Require Import Ascii String List Arith NArith ZArith Lia Bool.
From Verif Require Import Base PathExp Json Text QueryString MatchingRules Expr Generators RuleExpr Integration.
Import ListNotations.
Open Scope N_scope.

(** ** The encoding *)
(** form_urlencoded [byte_serialized_unchanged]. *)
Definition form_plain (b : N) : bool :=
  is_upper b || is_lower b || is_digit b || (b =? 42) || (b =? 45) || (b =? 46) || (b =? 95).
Definition big_hex (d : N) : N := if d <? 10 then 48 + d else 55 + d.
(** [byte_serialize]: a space becomes [+]. *)
Definition form_byte (b : N) : str :=
  if form_plain b then [b] else if b =? 32 then [43] else [37; big_hex (b / 16); big_hex (b mod 16)].
Definition form_encode (s : str) : str := flat_map form_byte (utf8 s).
(** serde_urlencoded [to_string] of a list of pairs. *)
Definition form_to_string (l : list (str * str)) : str :=
  join_with [38] (map (fun kv => form_encode (fst kv) ++ [61] ++ form_encode (snd kv)) l).
(** percent_encoding [percent_decode]. *)
Fixpoint percent_decode (s : list N) : list N :=
  match s with
  | [] => []
  | c :: t =>
      if c =? 37 then
        match t with
        | a :: b :: r =>
            match hex_value a, hex_value b with
            | Some x, Some y => (x * 16 + y) :: percent_decode r
            | _, _ => c :: percent_decode t
            end
        | _ => c :: percent_decode t
        end
      else c :: percent_decode t
  end.
Section Decode.
(** [String::from_utf8_lossy] of bytes that are not UTF-8. *)
Variable lossy : list N -> str.
Definition form_decode (s : list N) : str :=
  let bytes := percent_decode (map (fun c => if c =? 43 then 32 else c) s) in
  match from_utf8 bytes with Some t => t | None => lossy bytes end.
(** [parse]: parts between [&] that are not empty, cut at the first [=]. *)
Definition form_parse (s : list N) : list (str * str) :=
  map (fun p => match split_once 61 p with Some (k, v) => (form_decode k, form_decode v) | None => (form_decode p, form_decode []) end)
    (filter (fun p => match p with [] => false | _ => true end) (split_on 38 s)).
End Decode.

(** ** Bodies described by JSON *)
(** [str::contains]. *)
Fixpoint begins_with (sub s : str) : bool :=
  match sub, s with
  | [], _ => true
  | a :: sub', b :: s' => (a =? b) && begins_with sub' s'
  | _, [] => false
  end.
Fixpoint contains (sub s : str) : bool :=
  begins_with sub s || match s with [] => false | _ :: s' => contains sub s' end.
Definition hm_remove {A} (k : docpath) (m : list (docpath * A)) : list (docpath * A) := filter (fun e => negb (path_eqb k (fst e))) m.

Section Form.
Variable w : world.
Variable junk : str -> nat.

(** form_urlencoded.rs:55-63 [handle_form_urlencoded_invalid_value]: over the keys of a copy of the rules. *)
Definition handle_invalid (path : docpath) (st : store) : store :=
  fold_left (fun st k =>
      if contains (path_expr path) (path_expr k) then
        mkStore (mkCat (cat_name (st_rules st)) (hm_remove k (cat_rules (st_rules st))))
                (cats_update GcBody (hm_remove k) (st_gens st))
      else st)
    (map fst (cat_rules (st_rules st))) st.
(** 33-34, 39-40: numbers and texts. *)
Definition form_value (v : json) : option str :=
  match v with JNum n => Some (show_num w n) | JStr s => Some s | _ => None end.
(** 36-43. *)
Fixpoint array_params (key : str) (i : N) (l : list json) (st : store) : list (str * str) * store :=
  match l with
  | [] => ([], st)
  | v :: l' =>
      match form_value v with
      | Some t => let (ps, st') := array_params key (i + 1) l' st in ((key, t) :: ps, st')
      | None => array_params key (i + 1) l' (handle_invalid (push_index (join path_root key) i) st)
      end
  end.
(** 29-47. *)
Fixpoint object_params (m : list (str * json)) (st : store) : list (str * str) * store :=
  match m with
  | [] => ([], st)
  | (key, v) :: m' =>
      let (ps, st1) :=
        match form_value v, v with
        | Some t, _ => ([(key, t)], st)
        | None, JArr l => array_params key 0 l st
        | None, _ => ([], handle_invalid (join path_root key) st)
        end in
      let (ps', st2) := object_params m' st1 in
      (ps ++ ps', st2)
  end.
(** 26-53 [convert_json_value_to_query_params]. *)
Definition convert_params (v : json) (st : store) : list (str * str) * store :=
  match v with
  | JObj m => object_params m st
  | _ => ([], st)
  end.
(** 15-24 [process_form_urlencoded_json]; [None] is a text that is not JSON, on which [from_str(..).unwrap()] panics. *)
Definition process_form (body : option json) (st : store) : outcome (str * store) unit :=
  match body with
  | None => Panic
  | Some v =>
      bind (process_json_value w junk v st) (fun r =>
        let (params, st') := convert_params (fst r) (snd r) in
        Ok (form_to_string params, st'))
  end.
End Form.
