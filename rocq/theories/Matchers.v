(** Model of single-value matching: rust/pact_matching/src/matchers.rs and the
    [matches_with] implementations of json.rs and matchingrules.rs.

    A result [Ok(())] is [true], an [Err] is [false]: the error texts are not
    modelled. The [datetime] feature is taken to be enabled (the default). *)
From Coq Require Import Ascii String List Arith NArith ZArith Lia Bool.
From Verif Require Import Base PathExp Json MatchingRules.
Import ListNotations.
Open Scope N_scope.

(** [str::contains(&str)]. *)
Fixpoint contains (sub s : str) : bool :=
  starts_with sub s || match s with [] => false | _ :: s' => contains sub s' end.

(** [str::parse::<u16>()]. *)
Definition parse_u16 (s : str) : option N :=
  match parse_usize s with
  | Some n => if n <? 65536 then Some n else None
  | None => None
  end.

(** [slice::contains] on u16 codes. *)
Definition code_in (c : N) (l : list N) : bool := existsb (N.eqb c) l.

(** matchers.rs:806-824 [match_status_code]. *)
Definition match_status_code (code : N) (s : http_status) : bool :=
  match s with
  | HInformation => (100 <=? code) && (code <=? 199)
  | HSuccess => (200 <=? code) && (code <=? 299)
  | HRedirect => (300 <=? code) && (code <=? 399)
  | HClientError => (400 <=? code) && (code <=? 499)
  | HServerError => (500 <=? code) && (code <=? 599)
  | HStatusCodes codes => code_in code codes
  | HNonError => code <? 400
  | HError => 400 <=? code
  end.

(** The default formats of the date, time and timestamp rules
    (matchers.rs:209-260, json.rs:194-245). *)
Definition or_default (s d : str) : str := match s with [] => d | _ => s end.
Definition default_date : str := S_ "yyyy-MM-dd".
Definition default_time : str := S_ "HH:mm:ss".
Definition default_timestamp : str := S_ "yyyy-MM-dd'T'HH:mm:ssXXX".

Definition nonempty {A} (l : list A) : bool := match l with [] => false | _ => true end.
Definition len {A} (l : list A) : N := N.of_nat (length l).

(** The fall-through case of matchers.rs: an error unless the rule was cascaded and cannot cascade. *)
Definition unable (cascaded : bool) (r : rule) : bool := negb (negb cascaded || can_cascade r).

Section Matches.
Variable w : world.

(** [Regex::new(regex)] then [is_match]. *)
Definition regex_ok (pat text : str) : bool :=
  match regex_match w pat text with Some b => b | None => false end.

(** matchers.rs:163-302 [Matches<&str> for &str]. *)
Definition str_matches (e a : str) (r : rule) (cascaded : bool) : bool :=
  match r with
  | RRegex pat => regex_ok pat a
  | REquality | RValues => str_eqb e a
  | RType | RMinType _ | RMaxType _ | RMinMaxType _ _ => true
  | RInclude sub => contains sub a
  | RNumber | RDecimal => parse_float_ok w a
  | RInteger => match parse_usize a with Some _ => true | None => false end
  | RDate s => datetime_ok w a (or_default s default_date)
  | RTime s => datetime_ok w a (or_default s default_time)
  | RTimestamp s => datetime_ok w a (or_default s default_timestamp)
  | RBoolean => str_eqb a (S_ "true") || str_eqb a (S_ "false")
  | RStatusCode st => match parse_u16 a with Some c => match_status_code c st | None => false end
  | RNotEmpty => nonempty a
  | RSemver => semver_ok w a
  | RContentType ct => content_type_ok w a ct
  | RNull | RArrayContains _ | REachKey _ | REachValue _ => unable cascaded r
  end.

(** matchers.rs:353-398 [Matches<u64> for u64]; [actual as u16] truncates. *)
Definition u64_matches (e a : N) (r : rule) (cascaded : bool) : bool :=
  match r with
  | RRegex pat => regex_ok pat (show_N a)
  | RType | RMinType _ | RMaxType _ | RMinMaxType _ _ => true
  | REquality => e =? a
  | RInclude sub => contains sub (show_N a)
  | RNumber | RInteger => true
  | RDecimal => false
  | RStatusCode st => match_status_code (a mod 65536) st
  | _ => unable cascaded r
  end.
(** matchers.rs:546-552 [Matches<u16> for u16]: as u64. *)
Definition u16_matches : N -> N -> rule -> bool -> bool := u64_matches.

(** matchers.rs:670-704 [Matches<bool> for bool]. *)
Definition bool_matches (e a : bool) (r : rule) (cascaded : bool) : bool :=
  match r with
  | RRegex pat => regex_ok pat (if a then S_ "true" else S_ "false")
  | RType | RMinType _ | RMaxType _ | RMinMaxType _ _ => true
  | REquality => Bool.eqb a e
  | RBoolean => true
  | _ => unable cascaded r
  end.

(** json.rs:88-97 the pairs accepted by the type rules. *)
Definition same_json_type (e a : json) : bool :=
  match e, a with
  | JArr _, JArr _ => true
  | JBool _, JBool _ => true
  | JNum _, JNum _ => true
  | JNull, JNull => true
  | JObj _, JObj _ => true
  | JStr _, JStr _ => true
  | _, _ => false
  end.

(** The text a regex or include rule looks at (json.rs:71-74, 86-89). *)
Definition json_text (a : json) : str := match a with JStr s => s | _ => json_show w a end.

(** json.rs:67-275 [Matches<&Value> for Value]. *)
Definition json_matches (e a : json) (r : rule) (cascaded : bool) : bool :=
  match r with
  | RRegex pat => regex_ok pat (json_text a)
  | RInclude sub => contains sub (json_text a)
  | RType => same_json_type e a
  | RMinType min =>
      match e, a with
      | JArr _, JArr l => negb (negb cascaded && (len l <? min))
      | _, _ => same_json_type e a
      end
  | RMaxType max =>
      match e, a with
      | JArr _, JArr l => negb (negb cascaded && (max <? len l))
      | _, _ => same_json_type e a
      end
  | RMinMaxType min max =>
      match e, a with
      | JArr _, JArr l => if negb cascaded && (len l <? min) then false
                          else negb (negb cascaded && (max <? len l))
      | _, _ => same_json_type e a
      end
  | REquality | RValues => json_eqb e a
  | RNull => match a with JNull => true | _ => false end
  | RInteger => match a with JNum n => num_is_i64 n || num_is_u64 n | _ => false end
  | RDecimal => match a with JNum n => num_is_f64 n | _ => false end
  | RNumber => match a with JNum _ => true | _ => false end
  | RDate s => datetime_ok w (json_to_string w a) (or_default s default_date)
  | RTime s => datetime_ok w (json_to_string w a) (or_default s default_time)
  | RTimestamp s => datetime_ok w (json_to_string w a) (or_default s default_timestamp)
  | RContentType ct => json_content_type_ok w a ct
  | RBoolean => match a with
                | JBool _ => true
                | JStr s => str_eqb s (S_ "true") || str_eqb s (S_ "false")
                | _ => false
                end
  | RNotEmpty => match a with
                 | JNull => false
                 | JStr s => nonempty s
                 | JArr l => nonempty l
                 | JObj m => nonempty m
                 | _ => true
                 end
  | RSemver => match a with JStr s => semver_ok w s | _ => false end
  | RArrayContains _ | RStatusCode _ | REachKey _ | REachValue _ => true
  end.

(** matchingrules.rs:35-92 [Matches<&[T]> for &[T]]; [eqb] is [==] on the elements. *)
Definition list_matches {T} (eqb : T -> T -> bool) (e a : list T) (r : rule) (cascaded : bool) : bool :=
  match r with
  | RMinType min => negb (negb cascaded && (len a <? min))
  | RMaxType max => negb (negb cascaded && (max <? len a))
  | RMinMaxType min max => if negb cascaded && (len a <? min) then false
                           else negb (negb cascaded && (max <? len a))
  | REquality => list_eqb eqb e a
  | RNotEmpty => nonempty a
  | RRegex _ | RType | RArrayContains _ | REachKey _ | REachValue _ | RValues | RNumber | RDecimal | RInteger
  | RTime _ | RDate _ | RTimestamp _ | RInclude _ | RContentType _ | RBoolean | RSemver => true
  | RNull | RStatusCode _ => false
  end.

(** matchingrules.rs:176-227 [Matches<&BTreeMap<String, T>> for BTreeMap<String, T>];
    map equality is pairwise on the sorted entries. *)
Definition map_matches {T} (eqb : T -> T -> bool) (e a : list (str * T)) (r : rule) (cascaded : bool) : bool :=
  match r with
  | RRegex _ | RType => true
  | RMinType min => negb (negb cascaded && (len a <? min))
  | RMaxType max => negb (negb cascaded && (max <? len a))
  | RMinMaxType min max => if negb cascaded && (len a <? min) then false
                           else negb (negb cascaded && (max <? len a))
  | REquality => list_eqb (fun x y => str_eqb (fst x) (fst y) && eqb (snd x) (snd y)) e a
  | RNotEmpty => nonempty a
  | RArrayContains _ | REachKey _ | REachValue _ | RValues => true
  | _ => false
  end.
End Matches.

(** * Mismatches *)
(** [CommonMismatch]: the path text and what is wrong; the expected and actual
    texts and the wording of the description are not modelled. *)
Inductive mismatch_kind :=
| KType                          (* not the same type as expected *)
| KEmptyMap                      (* expected an empty map *)
| KEmptyList                     (* expected an empty list *)
| KMissingKeys (ks : list str)
| KKeysDiffer
| KKeyRule (key : str) (r : rule) (* a key does not satisfy an each-key rule *)
| KUnresolved (name : str)       (* unresolved reference in a definition *)
| KListLength (e a : N)
| KMissing (index : N)           (* list element missing *)
| KNoMatcher                     (* a rule list without rules *)
| KRule (r : rule)               (* value does not satisfy the rule *)
| KNotEqual                      (* value not equal, no rule defined *)
| KVariantNotFound (index : N)
| KVariantMissing (index : N)
| KAbsent                        (* expected header or query parameter is missing *)
| KNotEmpty                      (* expected an empty header or parameter list *)
| KParameters                    (* media type or a parameter of a header value differs *)
| KUnexpected                    (* a query parameter that is not expected *)
| KFuel                          (* not a Rust result: bound of the model's recursion; proved unreachable *).
Record mismatch := mkMM { mm_path : str; mm_kind : mismatch_kind }.

(** matchers.rs:773-803 [match_values]: the kinds of the error list, empty for
    [Ok(())]; [sat rule cascaded] is [expected.matches_with(actual, rule, cascaded).is_ok()]. *)
Definition match_values (sat : rule -> bool -> bool) (rl : rulelist) : list mismatch_kind :=
  if rl_is_empty rl then [KNoMatcher]
  else
    let ok r := sat r (rl_cascaded rl) in
    let errs := map KRule (filter (fun r => negb (ok r)) (rl_rules rl)) in
    match rl_logic rl with
    | And => if forallb ok (rl_rules rl) then [] else errs
    | Or => if existsb ok (rl_rules rl) then [] else errs
    end.

(** pact_matching/src/lib.rs:1944-1966 [match_status]: the mismatch kinds, empty
    for [Ok(())]; the rules are those of the status category. *)
Definition match_status (w : world) (expected actual : N) (m : category) : list mismatch_kind :=
  if matcher_is_defined m (to_vec path_empty) then
    match_values (u16_matches w expected actual) (select_best_matcher m (to_vec path_empty))
  else if expected =? actual then [] else [KNotEqual].
