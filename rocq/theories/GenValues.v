(** Model of the values the generators produce: rust/pact_models/src/generators/mod.rs:785-1222
    ([generate_value] for status codes, texts and JSON values), rand 0.8.5 and uuid 1.x where their
    results matter, expression_parser.rs:154-184 and pact_matching/src/generators/mod.rs:78-111.

    Every random draw is an argument: a source gives a number for every draw, and may be split.
    Choosing among [n] things takes the draw modulo [n], so every choice is possible. The regular
    expression sampler, dates and times, and finding a regular expression in a text are arguments too. *)
From Coq Require Import String List Arith NArith ZArith Bool Floats.SpecFloat.
From Verif Require Import Base PathExp Json Text MatchingRules Matchers JsonCompare Expr Generators GenApply.
Import ListNotations.
Open Scope N_scope.

(** A source of randomness. *)
Definition rng := list nat -> N.
Definition draw (r : rng) (i : nat) : N := r [i].
Definition sub (r : rng) (i : nat) : rng := fun l => r (i :: l).
(** [slice.choose]. *)
Definition pick (cs : list N) (n : N) : N := nth (N.to_nat (n mod N.of_nat (length cs))) cs 0.
Definition picks (cs : list N) (r : rng) (n : nat) : str := map (fun i => pick cs (draw r i)) (seq 0 n).

(** generators/mod.rs:785, 820. *)
Definition digit_charset : str := S_ "0123456789".
Definition hex_charset : str := S_ "0123456789ABCDEF".
(** rand's [GEN_ASCII_STR_CHARSET]. *)
Definition alphanumeric : str := S_ "ABCDEFGHIJKLMNOPQRSTUVWXYZabcdefghijklmnopqrstuvwxyz0123456789".

(** generators/mod.rs:798-801: a sample that starts with two zeros gets another digit in front. *)
Definition no_two_zeros (c : N) (drawn : str) : str :=
  match drawn with
  | a :: b :: _ => if (a =? 48) && (b =? 48) then c :: drawn else drawn
  | _ => drawn
  end.
(** generators/mod.rs:803-807: the digits used. *)
Definition select_digits (digits pos : nat) (sample : str) : str :=
  if negb (Nat.eqb pos 1) && (match sample with a :: _ => a =? 48 | [] => false end)
  then firstn digits (skipn 1 sample) else firstn digits sample.
(** generators/mod.rs:786-818 [generate_decimal]. *)
Definition generate_decimal (r : rng) (digits : nat) : str :=
  match digits with
  | O => []
  | 1%nat => [pick digit_charset (draw (sub r 0) 0)]
  | 2%nat => [pick digit_charset (draw (sub r 0) 0); 46; pick digit_charset (draw (sub r 0) 1)]
  | _ =>
      let sample := no_two_zeros (pick (tl digit_charset) (draw (sub r 1) 0)) (picks digit_charset (sub r 0) (digits + 1)) in
      let pos := (1 + N.to_nat (draw (sub r 1) 1 mod N.of_nat (digits - 2)))%nat in
      let selected := select_digits digits pos sample in
      firstn pos selected ++ [46] ++ skipn pos selected
  end.

(** rand 0.8.5 [IteratorRandom::choose_multiple]: the reservoir and the rest of the elements. *)
Fixpoint set_nth (k : nat) (c : N) (l : str) : str :=
  match l with
  | [] => []
  | x :: l' => match k with O => c :: l' | S k' => x :: set_nth k' c l' end
  end.
Fixpoint reservoir (r : rng) (amount i : nat) (res rest : str) : str :=
  match rest with
  | [] => res
  | c :: rest' => reservoir r amount (S i) (set_nth (N.to_nat (draw r i mod N.of_nat (i + 1 + amount))) c res) rest'
  end.
Definition choose_multiple (r : rng) (amount : nat) (cs : str) : str :=
  let res := firstn amount cs in
  if Nat.eqb (length res) amount then reservoir r amount 0 res (skipn amount cs) else res.
(** generators/mod.rs:821-824 [generate_hexadecimal]. *)
Definition generate_hexadecimal (r : rng) (digits : nat) : str := choose_multiple r digits hex_charset.

(** generators/mod.rs:858-860 [generate_ascii_string]. *)
Definition generate_ascii_string (r : rng) (size : nat) : str := picks alphanumeric r size.

(** [gen_range(lo..hi)]: panics on an empty range. *)
Definition gen_range (r : rng) (lo hi : Z) : outcome Z unit :=
  if (lo <? hi)%Z then Ok (lo + Z.of_N (draw r 0) mod (hi - lo))%Z else Panic.
(** [min..max.saturating_add(1)] for [i32] (generators/mod.rs:903, 1047). *)
Definition random_i32 (r : rng) (min max : Z) : outcome Z unit := gen_range r min (Z.min 2147483647 (max + 1)).
(** [min as u16..(max as u16).saturating_add(1)] (generators/mod.rs:834). *)
Definition random_u16 (r : rng) (min max : Z) : outcome N unit :=
  bind (gen_range r (min mod 65536) (Z.min 65535 (max mod 65536 + 1))) (fun z => Ok (Z.to_N z)).

(** uuid's [new_v4] (random bytes with the version and variant set) and its formats. *)
Definition uuid_bytes (r : rng) : list N :=
  map (fun i => let b := draw r i mod 256 in
                if Nat.eqb i 6 then 64 + b mod 16 else if Nat.eqb i 8 then 128 + b mod 64 else b) (seq 0 16).
Definition hex_byte (b : N) : str := [hex_digit (b / 16); hex_digit (b mod 16)].
Definition uuid_simple (r : rng) : str := flat_map hex_byte (uuid_bytes r).
Definition uuid_hyphenated (r : rng) : str :=
  let b := uuid_bytes r in
  flat_map hex_byte (firstn 4 b) ++ [45] ++ flat_map hex_byte (firstn 2 (skipn 4 b)) ++ [45] ++
  flat_map hex_byte (firstn 2 (skipn 6 b)) ++ [45] ++ flat_map hex_byte (firstn 2 (skipn 8 b)) ++ [45] ++
  flat_map hex_byte (skipn 10 b).
Definition uuid_urn (r : rng) : str := S_ "urn:uuid:" ++ uuid_hyphenated r.

(** generators/mod.rs:862-866 [strip_anchors]: both fall back to the whole pattern. *)
Definition strip_anchors (regex : str) : str :=
  let s := match regex with c :: s => if c =? 94 then s else regex | [] => regex end in
  match rev s with
  | c :: t => if c =? 36 then rev t else regex
  | [] => regex
  end.

Inductive when := ADate | ATime | ADateTime.

(** [value_at] of a JSON pointer; as [update_at]. *)
Fixpoint value_at (tokens : list str) (v : json) {struct tokens} : option json :=
  match tokens with
  | [] => Some v
  | t :: ts =>
      match v with
      | JObj m => match obj_get t m with Some x => value_at ts x | None => None end
      | JArr l => match pointer_index t with
                  | Some i => match nth_error l (N.to_nat i) with Some x => value_at ts x | None => None end
                  | None => None
                  end
      | _ => None
      end
  end.

(** generators/mod.rs:1244-1275 [apply_key] with generators that may panic (as GenApply.v [apply_key]). *)
Fixpoint apply_pointers_o (gen : nat -> json -> outcome json unit) (n : nat) (pointers : list str) (v : json) : outcome json unit :=
  match pointers with
  | [] => Ok v
  | p :: ps =>
      bind (match pointer_tokens p with
            | Some tokens =>
                match value_at tokens v with
                | Some x => match gen n x with
                            | Ok x' => Ok (update_at tokens (fun _ => x') v)
                            | Err _ => Ok v
                            | Panic => Panic
                            end
                | None => Ok v
                end
            | None => Ok v
            end)
        (fun v' => apply_pointers_o gen (S n) ps v')
  end.
Definition apply_key_o (gen : nat -> json -> outcome json unit) (key : docpath) (v : json) : outcome json unit :=
  match resolve_path v key with
  | [] => if Nat.eqb (length (path_tokens key)) 1
          then match gen O v with Ok v' => Ok v' | Err _ => Ok v | Panic => Panic end
          else Ok v
  | pointers => apply_pointers_o gen O pointers v
  end.

Section Values.
Variable w : world.
Variable parse_f64 : str -> option spec_float.
Variable regex_sample : rng -> str -> option str.  (* the parser, [rand_regex::Regex::with_hir] and a sample *)
Variable clock : when -> option str -> option str -> option json -> option str. (* format, expression, base *)
Variable url_parts : str -> str -> option (option (str * option str * str)). (* Regex::new; the match: before, group 1, after *)
Variable ctx : list (str * json). (* the test context *)

(** generators/mod.rs:835-843: provider state values may come under a key. *)
Definition state_context : Expr.context :=
  match obj_get (S_ "providerState") ctx with
  | Some (JObj m) => fun k => obj_get k m
  | _ => fun k => obj_get k ctx
  end.

(** expression_parser.rs:154-184 [TryFrom<DataValue> for u16]. *)
Definition try_u16 (d : data_type) (v : json) : outcome N unit :=
  match v with
  | JNull => Ok 0
  | JBool b => Ok (if b then 1 else 0)
  | JNum (PosInt n) => Ok (n mod 65536)
  | JNum (NegInt z) => Ok (Z.to_N (z mod 65536))
  | JNum (Float f) => Ok (N.min 65535 (float_to_usize f))
  | JStr s => match d with
              | DInteger | DRaw | DString => of_option (parse_u16 s)
              | DDecimal | DFloat => bind (of_option (parse_f64 s)) (fun f => Ok (N.min 65535 (float_to_usize f)))
              | DBoolean => Err tt
              end
  | _ => Err tt
  end.

(** generators/mod.rs:826-856 [generate_value] for a status code. *)
Definition status_value (r : rng) (g : generator) (value : N) : outcome N unit :=
  match g with
  | GRandomInt min max => random_u16 r min max
  | GProviderState e d =>
      bind (value_from_context state_context w e) (try_u16 (match d with Some d => d | None => DRaw end))
  | _ => Err tt
  end.

(** generators/mod.rs:868-873 [replace_with_regex]: panics when the match has no first group. *)
Definition replace_with_regex (example url : str) (m : option (str * option str * str)) : outcome str unit :=
  match m with
  | None => Ok example
  | Some (before_, Some group, after_) => Ok (before_ ++ url ++ group ++ after_)
  | Some (_, None, _) => Panic
  end.
(** generators/mod.rs:1002-1020 and 1182-1203, with the names of the URL of the mock server. *)
Definition mock_server_url (names : list str) (example regex : str) : outcome str unit :=
  match obj_get (S_ "mockServer") ctx with
  | Some (JObj m) =>
      match fold_left (fun o k => match o with Some u => Some u | None => get_field_as_string w k m end) names None with
      | Some url => match url_parts regex example with
                    | Some p => replace_with_regex example url p
                    | None => Err tt
                    end
      | None => Err tt
      end
  | _ => Err tt
  end.

Definition uuid_text (r : rng) (f : option uuid_format) : str :=
  match f with
  | Some USimple => uuid_simple r
  | Some ULower | None => uuid_hyphenated r
  | Some UUpper => to_upper w (uuid_hyphenated r)
  | Some UUrn => uuid_urn r
  end.
Definition clock_value (k : when) (f e : option str) : option str :=
  clock k f e (obj_get (match k with ADate => S_ "baseDate" | ATime => S_ "baseTime" | ADateTime => S_ "baseDateTime" end) ctx).

(** generators/mod.rs:893-1025 [generate_value] for a text; the old value is not used. *)
Definition text_value (r : rng) (g : generator) : outcome str unit :=
  match g with
  | GRandomInt min max => bind (random_i32 r min max) (fun z => Ok (show_Z z))
  | GUuid f => Ok (uuid_text r f)
  | GRandomDecimal d => Ok (generate_decimal r (N.to_nat d))
  | GRandomHexadecimal d => Ok (generate_hexadecimal r (N.to_nat d))
  | GRandomString d => Ok (generate_ascii_string r (N.to_nat d))
  | GRegex p => of_option (regex_sample r (strip_anchors p))
  | GDate f e => of_option (clock_value ADate f e)
  | GTime f e => of_option (clock_value ATime f e)
  | GDateTime f e => of_option (clock_value ADateTime f e)
  | GRandomBoolean => Ok (if N.odd (draw r 0) then S_ "true" else S_ "false")
  | GProviderState e d => provider_state_text w parse_f64 state_context e d
  | GMockServerURL e p => mock_server_url [S_ "url"] e p
  | GArrayContains _ => Err tt
  end.

(** pact_matching/src/generators/mod.rs:78-111: does the value, compared with itself, satisfy the rules? *)
Definition satisfies (rules : category) (v : json) : bool :=
  match compare_json w path_root v v (mkCtx false rules) with [] => true | _ => false end.

(** generators/mod.rs:1204-1219: the elements of an array one after the other. *)
Fixpoint each (f : nat -> json -> outcome json unit) (i : nat) (l : list json) : outcome (list json) unit :=
  match l with
  | [] => Ok []
  | v :: l' => bind (f i v) (fun v' => bind (each f (S i) l') (fun l'' => Ok (v' :: l'')))
  end.

(** generators/mod.rs:1038-1222 [generate_value] for a JSON value. *)
Fixpoint json_value (r : rng) (g : generator) (value : json) {struct g} : outcome json unit :=
  match g with
  | GRandomInt min max =>
      bind (random_i32 r min max) (fun z => Ok (match value with JStr _ => JStr (show_Z z) | _ => json_of_i64 z end))
  | GUuid f => Ok (JStr (match value with JStr _ => uuid_text r f | _ => uuid_hyphenated r end))
  | GRandomDecimal d =>
      let t := generate_decimal r (N.to_nat d) in
      match value with
      | JNum _ => bind (of_option (parse_f64 t)) (fun f => Ok (json_of_f64 f))
      | _ => Ok (JStr t)
      end
  | GRandomHexadecimal d => Ok (JStr (generate_hexadecimal r (N.to_nat d)))
  | GRandomString d => Ok (JStr (generate_ascii_string r (N.to_nat d)))
  | GRegex p => bind (of_option (regex_sample r (strip_anchors p))) (fun s => Ok (JStr s))
  | GDate f e => bind (of_option (clock_value ADate f e)) (fun s => Ok (JStr s))
  | GTime f e => bind (of_option (clock_value ATime f e)) (fun s => Ok (JStr s))
  | GDateTime f e => bind (of_option (clock_value ADateTime f e)) (fun s => Ok (JStr s))
  | GRandomBoolean => Ok (JBool (N.odd (draw r 0)))
  | GProviderState e d => provider_state_json w parse_f64 state_context e d
  | GMockServerURL e p => bind (mock_server_url [S_ "url"; S_ "href"] e p) (fun s => Ok (JStr s))
  | GArrayContains variants =>
      match value with
      | JArr vec =>
          bind (each (fun i v =>
                  (fix find (vs : list (N * category * list (docpath * generator))) : outcome json unit :=
                     match vs with
                     | [] => Ok v
                     | (_, rules, gens) :: vs' =>
                         if satisfies rules v then
                           (fix apply (j : nat) (gs : list (docpath * generator)) (doc : json) {struct gs} : outcome json unit :=
                              match gs with
                              | [] => Ok doc
                              | (key, g') :: gs' =>
                                  bind (apply_key_o (fun n x => json_value (sub (sub (sub r i) j) n) g' x) key doc)
                                    (fun doc' => apply (S j) gs' doc')
                              end) O gens v
                         else find vs'
                     end) variants) O vec)
            (fun l => Ok (JArr l))
      | _ => Err tt
      end
  end.
End Values.
