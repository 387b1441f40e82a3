(** Model of rust/pact_models/src/matchingrules/expressions.rs: matching rule
    definition expressions such as [matching(regex, '\d+', '12'), notEmpty('x')].

    The tokens are those of the [logos] lexer derived at 252-308, taken as
    "longest match, the earlier (more specific) alternative on a tie". How
    much of the text the lexer swallows when no token matches is not documented:
    [junk] gives the number of characters after the first one, and
    is arbitrary. Error messages are not modelled ([None] is [Err]). *)
From Coq Require Import String List NArith ZArith Lia Bool.
From Verif Require Import Base PathExp Json MatchingRules Expr Generators.
Import ListNotations.
Open Scope N_scope.

(** expressions.rs:141-172 [ValueType::merge], clause by clause. *)
Definition vt_merge (a b : value_type) : value_type :=
  match a, b with
  | VString, VString => VString
  | VNumber, VNumber => VNumber
  | VNumber, VBoolean => VNumber
  | VNumber, VUnknown => VNumber
  | VNumber, VInteger => VInteger
  | VNumber, VDecimal => VDecimal
  | VNumber, VString => VString
  | VInteger, VNumber => VInteger
  | VInteger, VBoolean => VInteger
  | VInteger, VUnknown => VInteger
  | VInteger, VInteger => VInteger
  | VInteger, VDecimal => VDecimal
  | VInteger, VString => VString
  | VDecimal, VNumber => VDecimal
  | VDecimal, VBoolean => VDecimal
  | VDecimal, VUnknown => VDecimal
  | VDecimal, VInteger => VDecimal
  | VDecimal, VDecimal => VDecimal
  | VDecimal, VString => VString
  | VBoolean, VNumber => VNumber
  | VBoolean, VInteger => VInteger
  | VBoolean, VDecimal => VDecimal
  | VBoolean, VUnknown => VBoolean
  | VBoolean, VString => VString
  | VBoolean, VBoolean => VBoolean
  | VString, _ => VString
  | VUnknown, _ => b
  end.

(** 175-186 [Into<DataType> for ValueType]. *)
Definition vt_data (v : value_type) : data_type :=
  match v with
  | VUnknown => DRaw
  | VString => DString
  | VNumber => DDecimal
  | VInteger => DInteger
  | VDecimal => DDecimal
  | VBoolean => DBoolean
  end.

(** 196-204 [struct MatchingRuleDefinition], with its generator. *)
Record xdef_ (R : Type) := mkX {
  x_value : str; x_type : value_type; x_rules : list (R + str);
  x_gen : option generator; x_expr : str }.
Arguments mkX {R}. Arguments x_value {R}. Arguments x_type {R}. Arguments x_rules {R}.
Arguments x_gen {R}. Arguments x_expr {R}.

(** [MatchingRule] where each-key and each-value rules hold whole definitions
    (the other rules that expressions give are those of MatchingRules.v) and
    array-contains rules hold the generators of their variants. *)
Inductive xrule :=
| XRule (r : rule)
| XEachKey (d : xdef_ xrule)
| XEachValue (d : xdef_ xrule)
| XContains (variants : list (N * category_ xrule * gen_map)).
Notation xdef := (xdef_ xrule).

(** 228-253 [MatchingRuleDefinition::merge]. *)
Definition is_nil {A} (l : list A) : bool := match l with [] => true | _ => false end.
Definition x_merge (a b : xdef) : xdef :=
  mkX (if is_nil (x_value a) then x_value b else x_value a)
      (vt_merge (x_type a) (x_type b))
      (x_rules a ++ x_rules b)
      (match x_gen a with Some g => Some g | None => x_gen b end)
      (if is_nil (x_expr a) then x_expr b
       else if is_nil (x_expr b) || str_eqb (x_expr a) (x_expr b) then x_expr a
       else x_expr a ++ S_ ", " ++ x_expr b).

(** * The lexer, 255-308 *)
Inductive tok :=
| TMatching | TNotEmpty | TEachKey | TEachValue | TAtLeast | TAtMost
| TLeft | TRight | TComma | TString | TId | TInt | TNum (n : N) | TDecimal | TDecimalPart
| TBoolean | TNull | TDollar
| TErr.

(** 256 [#[logos(skip r"[ \t\n\f]+")]]. *)
Definition is_blank (c : N) : bool := (c =? 32) || (c =? 9) || (c =? 10) || (c =? 12).
Fixpoint skip_blank (s : str) : str :=
  match s with
  | c :: s' => if is_blank c then skip_blank s' else s
  | [] => []
  end.

Fixpoint span (p : N -> bool) (s : str) : str * str :=
  match s with
  | c :: s' => if p c then let (a, b) := span p s' in (c :: a, b) else ([], s)
  | [] => ([], [])
  end.

(** 282-283 [r"'(?:[^']|\\')*'"] after its opening quote: a quote goes on only after a
    backslash, and only when a later quote closes the text. [bs]: a backslash comes before. *)
Fixpoint str_lit (bs : bool) (s : str) : option (str * str) :=
  match s with
  | [] => None
  | c :: s' =>
      if c =? 39 then
        if bs then
          match str_lit false s' with
          | Some (b, r) => Some (c :: b, r)
          | None => Some ([c], s')
          end
        else Some ([c], s')
      else
        match str_lit (c =? 92) s' with
        | Some (b, r) => Some (c :: b, r)
        | None => None
        end
  end.

(** 258-274, 285-286, 300-304 the tokens made of letters. *)
Definition word_tok (s : str) : tok :=
  if str_eqb s (S_ "matching") then TMatching
  else if str_eqb s (S_ "notEmpty") then TNotEmpty
  else if str_eqb s (S_ "eachKey") then TEachKey
  else if str_eqb s (S_ "eachValue") then TEachValue
  else if str_eqb s (S_ "atLeast") then TAtLeast
  else if str_eqb s (S_ "atMost") then TAtMost
  else if str_eqb s (S_ "true") || str_eqb s (S_ "false") then TBoolean
  else if str_eqb s (S_ "null") then TNull
  else TId.

(** 294-295 [-?[0-9]\.[0-9]+] after the sign. *)
Definition decimal_lit (ds r : str) : option (str * str) :=
  match ds, r with
  | [d], c :: r' =>
      if c =? 46 then
        match span is_digit r' with
        | ([], _) => None
        | (fs, r'') => Some (d :: c :: fs, r'')
        end
      else None
  | _, _ => None
  end.
(** 288-292 the callbacks: [i64] and [usize] that do not overflow. *)
Definition int_tok (ds : str) : tok := if dec_value ds 0 <=? 9223372036854775808 then TInt else TErr.
Definition num_tok (ds : str) : tok := if dec_value ds 0 <? two64 then TNum (dec_value ds 0) else TErr.

Section Lexer.
Variable junk : str -> nat.

(** No token matches: an error token that swallows at least a character. *)
Definition lex_err (s : str) : tok * str * str :=
  (TErr, firstn (S (junk s)) s, skipn (S (junk s)) s).

(** One token at the start of a non-empty text: the token, its text ([lex.slice()]), the rest ([lex.remainder()]). *)
Definition lex_at (s : str) (c : N) (s' : str) : tok * str * str :=
  if c =? 40 then (TLeft, [c], s')
  else if c =? 41 then (TRight, [c], s')
  else if c =? 44 then (TComma, [c], s')
  else if c =? 36 then (TDollar, [c], s')
  else if c =? 39 then
    match str_lit false s' with
    | Some (b, r) => (TString, c :: b, r)
    | None => lex_err s
    end
  else if ascii_alpha c then
    let (a, r) := span ascii_alpha s in (word_tok a, a, r)
  else if is_digit c then
    let (ds, r) := span is_digit s in
    match decimal_lit ds r with
    | Some (d, r') => (TDecimal, d, r')
    | None => (num_tok ds, ds, r)
    end
  else if c =? 45 then
    match span is_digit s' with
    | ([], _) => lex_err s
    | (ds, r) =>
        match decimal_lit ds r with
        | Some (d, r') => (TDecimal, c :: d, r')
        | None => (int_tok ds, c :: ds, r)
        end
    end
  else if c =? 46 then
    match span is_digit s' with
    | ([], _) => lex_err s
    | (ds, r) => (TDecimalPart, c :: ds, r)
    end
  else lex_err s.

(** [lex.next()]. *)
Definition next (s : str) : option (tok * str * str) :=
  match skip_blank s with
  | [] => None
  | c :: s' => Some (lex_at (c :: s') c s')
  end.

(** * Literals *)
(** [trim_matches('\'')]. *)
Fixpoint drop_quotes (s : str) : str :=
  match s with
  | c :: s' => if c =? 39 then drop_quotes s' else s
  | [] => []
  end.
Definition trim_quotes (s : str) : str := rev (drop_quotes (rev (drop_quotes s))).

(** [u32::from_str_radix(_, 16)]. *)
Definition hex_val (c : N) : option N :=
  if is_digit c then Some (c - 48)
  else if (65 <=? c) && (c <=? 70) then Some (c - 55)
  else if (97 <=? c) && (c <=? 102) then Some (c - 87)
  else None.
Fixpoint hex_go (s : str) (acc : N) : option N :=
  match s with
  | [] => Some acc
  | c :: s' => match hex_val c with Some d => hex_go s' (acc * 16 + d) | None => None end
  end.
Definition parse_hex32 (s : str) : option N :=
  let ds := match s with c :: s' => if c =? 43 then s' else s | [] => s end in
  match ds with
  | [] => None
  | _ => match hex_go ds 0 with
         | Some n => if n <? 4294967296 then Some n else None
         | None => None
         end
  end.
(** [char::from_u32(code).unwrap_or(REPLACEMENT_CHARACTER)]. *)
Definition char_or_replacement (n : N) : N :=
  if (n <? 55296) || ((57344 <=? n) && (n <? 1114112)) then n else 65533.

(** 957-968 the text between the braces of [\u{...}]. *)
Fixpoint until_brace (s : str) : option (str * str) :=
  match s with
  | [] => None
  | c :: s' =>
      if c =? 125 then Some ([], s')
      else match until_brace s' with Some (b, r) => Some (c :: b, r) | None => None end
  end.

(** 936-991 [process_raw_string]; fuel is the length of the text. *)
Definition simple_escape (c : N) : option N :=
  if c =? 92 then Some 92
  else if c =? 98 then Some 8
  else if c =? 102 then Some 12
  else if c =? 110 then Some 10
  else if c =? 114 then Some 13
  else if c =? 116 then Some 9
  else None.
Fixpoint unescape (fuel : nat) (s : str) : option str :=
  match fuel with
  | O => None
  | S f =>
    match s with
    | [] => Some []
    | c :: s1 =>
        if c =? 92 then
          match s1 with
          | [] => Some [c]
          | c2 :: s2 =>
              match simple_escape c2 with
              | Some e => option_map (cons e) (unescape f s2)
              | None =>
                  if c2 =? 117 then
                    match
                      (match s2 with
                       | c3 :: s3 =>
                           if c3 =? 123 then until_brace s3
                           else match s3 with
                                | c4 :: c5 :: c6 :: s6 => Some ([c3; c4; c5; c6], s6)
                                | _ => None
                                end
                       | [] => None
                       end)
                    with
                    | Some (b, r) =>
                        match parse_hex32 b with
                        | Some n => option_map (cons (char_or_replacement n)) (unescape f r)
                        | None => None
                        end
                    | None => None
                    end
                  else option_map (fun t => c :: c2 :: t) (unescape f s2)
              end
          end
        else option_map (cons c) (unescape f s1)
    end
  end.
Definition process_raw_string (s : str) : option str := unescape (S (length s)) s.

(** * The parser: each function takes the remaining text and gives its result with what remains *)
Definition parser (A : Type) := str -> option (A * str).

(** [lex.next()] which must give the token [t]. *)
Definition expect (t : tok -> bool) : parser str := fun s =>
  match next s with
  | Some (k, w, r) => if t k then Some (w, r) else None
  | None => None
  end.
Definition is_left (t : tok) : bool := match t with TLeft => true | _ => false end.
Definition is_right (t : tok) : bool := match t with TRight => true | _ => false end.
Definition is_comma (t : tok) : bool := match t with TComma => true | _ => false end.
Definition is_string (t : tok) : bool := match t with TString => true | _ => false end.
Definition is_boolean (t : tok) : bool := match t with TBoolean => true | _ => false end.

Definition pbind {A B} (p : parser A) (f : A -> parser B) : parser B := fun s =>
  match p s with
  | Some (a, r) => f a r
  | None => None
  end.
Definition ret {A} (a : A) : parser A := fun s => Some (a, s).

(** 913-934 [parse_string], 1029-1045 [parse_comma]. *)
Definition parse_string : parser str := fun s =>
  match expect is_string s with
  | Some (w, r) =>
      match process_raw_string (trim_quotes w) with Some v => Some (v, r) | None => None end
  | None => None
  end.
Definition parse_comma : parser str := expect is_comma.

(** [lex.remainder().starts_with('.')] after a number: the fraction is the next token, whatever it is. *)
Definition with_fraction (w : str) (r : str) : option (str * bool * str) :=
  match r with
  | c :: _ =>
      if c =? 46 then
        match next r with
        | Some (_, w', r') => Some (w ++ w', true, r')
        | None => None
        end
      else Some (w, false, r)
  | [] => Some (w, false, r)
  end.

Definition prim := (str * value_type * option generator)%type.

(** 1080-1098 [from_provider_state], given how to read a primitive value. *)
Definition from_provider_state_with (pv : parser prim) : parser prim :=
  pbind (expect is_left) (fun _ =>
  pbind parse_string (fun e =>
  pbind parse_comma (fun _ =>
  pbind pv (fun x =>
  pbind (expect is_right) (fun _ =>
    match x with
    | (v, t, _) => ret (v, t, Some (GProviderState e (Some (vt_data t))))
    end))))).

(** 770-815 [parse_primitive_value]; [again]: what a call of [fromProviderState] does ([None]: already called). *)
Definition parse_primitive_with (again : option (parser prim)) : parser prim := fun s =>
  match next s with
  | None => None
  | Some (t, w, r) =>
      match t with
      | TString => Some ((trim_quotes w, VString, None), r)
      | TNull => Some (([], VString, None), r)
      | TInt | TNum _ =>
          match with_fraction w r with
          | Some (v, true, r') => Some ((v, VDecimal, None), r')
          | Some (v, false, r') => Some ((v, VInteger, None), r')
          | None => None
          end
      | TDecimal => Some ((w, VDecimal, None), r)
      | TBoolean => Some ((w, VBoolean, None), r)
      | TId =>
          match again with
          | Some p => if str_eqb w (S_ "fromProviderState") then p r else None
          | None => None
          end
      | _ => None
      end
  end.
Definition parse_inner_value : parser prim := parse_primitive_with None.
Definition from_provider_state : parser prim := from_provider_state_with parse_inner_value.
Definition parse_primitive_value : parser prim := parse_primitive_with (Some from_provider_state).

(** What the functions for one kind of matcher give: the value, its type, the rule or the reference, the generator. *)
Definition mresult := (str * value_type * (rule + str) * option generator)%type.

(** 655-661 [parse_reference]. *)
Definition parse_reference : parser mresult :=
  pbind parse_string (fun name => ret (name, VUnknown, inr name, None)).

(** 689-697 [parse_equality], 708-716 [parse_type]. *)
Definition parse_with_primitive (r : rule) : parser mresult :=
  pbind parse_comma (fun _ =>
  pbind parse_primitive_value (fun x => ret (fst (fst x), snd (fst x), inl r, snd x))).

(** 700-706 [parse_regex], 755-761 [parse_content_type]. *)
Definition parse_two_strings (f : str -> rule) (t : value_type) : parser mresult :=
  pbind parse_comma (fun _ =>
  pbind parse_string (fun a =>
  pbind parse_comma (fun _ =>
  pbind parse_string (fun b => ret (b, t, inl (f a), None))))).

(** 718-745 [parse_datetime], [parse_date], [parse_time]. [str::trim_start] removes white space,
    [starts_with] only looks at the text: the token that begins there is dropped. *)
Variable w : world.
Definition is_white (c : N) : bool :=
  if c <? 128 then (c =? 32) || ((9 <=? c) && (c <=? 13)) else uni_space w c.
Fixpoint trim_start (s : str) : str :=
  match s with
  | c :: s' => if is_white c then trim_start s' else s
  | [] => []
  end.
Fixpoint starts_with (p s : str) : bool :=
  match p, s with
  | [], _ => true
  | a :: p', b :: s' => (a =? b) && starts_with p' s'
  | _, _ => false
  end.
Definition skip_token : parser unit := fun s =>
  match next s with
  | Some (_, _, r) => Some (tt, r)
  | None => Some (tt, [])
  end.
Definition parse_format (f : str -> rule) (g : str -> generator) : parser mresult :=
  pbind parse_comma (fun _ =>
  pbind parse_string (fun fmt =>
  pbind parse_comma (fun _ => fun s =>
    if starts_with (S_ "fromProviderState") (trim_start s) then
      pbind skip_token (fun _ =>
      pbind from_provider_state (fun x => ret (fst (fst x), snd (fst x), inl (f fmt), snd x))) s
    else
      pbind parse_string (fun v => ret (v, VString, inl (f fmt), Some (g fmt))) s))).

(** 748-753 [parse_include], 664-686 [parse_semver]. *)
Definition parse_include : parser mresult :=
  pbind parse_comma (fun _ =>
  pbind parse_string (fun v => ret (v, VString, inl (RInclude v), None))).
Definition parse_semver : parser mresult :=
  pbind parse_comma (fun _ =>
  pbind parse_string (fun v => fun s =>
    if semver_ok w v then ret (v, VString, inl RSemver, None) s else None)).

(** 817-843 [parse_number], 845-862 [parse_integer], 864-890 [parse_decimal]:
    [whole] decides what happens at a dot, [decimal] if a decimal token will do, [ps] is the rule with [fromProviderState]. *)
Definition state_or_fail (word : str) (rl : rule) : parser mresult := fun r =>
  if str_eqb word (S_ "fromProviderState")
  then pbind from_provider_state (fun x => ret (fst (fst x), snd (fst x), inl rl, snd x)) r
  else None.
Definition parse_number : parser mresult :=
  pbind parse_comma (fun _ => fun s =>
    match next s with
    | Some (TDecimal, w, r) => Some ((w, VNumber, inl RNumber, None), r)
    | Some (TInt, w, r) | Some (TNum _, w, r) =>
        match with_fraction w r with
        | Some (v, _, r') => Some ((v, VNumber, inl RNumber, None), r')
        | None => None
        end
    | Some (TId, w, r) => state_or_fail w RNumber r
    | _ => None
    end).
Definition parse_integer : parser mresult :=
  pbind parse_comma (fun _ => fun s =>
    match next s with
    | Some (TInt, w, r) | Some (TNum _, w, r) => Some ((w, VInteger, inl RInteger, None), r)
    | Some (TId, w, r) => state_or_fail w RInteger r
    | _ => None
    end).
Definition parse_decimal : parser mresult :=
  pbind parse_comma (fun _ => fun s =>
    match next s with
    | Some (TInt, w, r) | Some (TNum _, w, r) =>
        match with_fraction w r with
        | Some (v, _, r') => Some ((v, VDecimal, inl RDecimal, None), r')
        | None => None
        end
    | Some (TDecimal, w, r) => Some ((w, VDecimal, inl RDecimal, None), r)
    | Some (TId, w, r) => state_or_fail w RNumber r
    | _ => None
    end).
(** 892-902 [parse_boolean]. *)
Definition parse_boolean : parser mresult :=
  pbind parse_comma (fun _ =>
  pbind (expect is_boolean) (fun v => ret (v, VBoolean, inl RBoolean, None))).

(** 609-652 [parse_matching_rule]. *)
Definition parse_matching_rule : parser mresult := fun s =>
  match next s with
  | Some (TId, a, r) =>
      if str_eqb a (S_ "equalTo") then parse_with_primitive REquality r
      else if str_eqb a (S_ "regex") then parse_two_strings RRegex VString r
      else if str_eqb a (S_ "type") then parse_with_primitive RType r
      else if str_eqb a (S_ "datetime") then parse_format RTimestamp (fun f => GDateTime (Some f) None) r
      else if str_eqb a (S_ "date") then parse_format RDate (fun f => GDate (Some f) None) r
      else if str_eqb a (S_ "time") then parse_format RTime (fun f => GTime (Some f) None) r
      else if str_eqb a (S_ "include") then parse_include r
      else if str_eqb a (S_ "number") then parse_number r
      else if str_eqb a (S_ "integer") then parse_integer r
      else if str_eqb a (S_ "decimal") then parse_decimal r
      else if str_eqb a (S_ "boolean") then parse_boolean r
      else if str_eqb a (S_ "contentType") then parse_two_strings RContentType VUnknown r
      else if str_eqb a (S_ "semver") then parse_semver r
      else None
  | Some (TDollar, _, r) => parse_reference r
  | _ => None
  end.

(** 575-589 [parse_matching], 554-572 [parse_not_empty], 1057-1078 [parse_length_param]. *)
Definition brackets {A} (p : parser A) : parser A :=
  pbind (expect is_left) (fun _ => pbind p (fun a => pbind (expect is_right) (fun _ => ret a))).
Definition parse_matching : parser mresult := brackets parse_matching_rule.
Definition parse_not_empty : parser prim := brackets parse_primitive_value.
Definition parse_length_param : parser N := brackets (fun s =>
  match next s with
  | Some (TNum n, _, r) => Some (n, r)
  | _ => None
  end).

Section Whole.
Variable v : str.   (* the whole expression *)
Definition one_rule (r : xrule) : xdef := mkX [] VUnknown [inl r] None v.
Definition x_item (r : rule + str) : xrule + str := match r with inl a => inl (XRule a) | inr n => inr n end.
(** 378-386: a reference has no type of its own. *)
Definition x_of_matching (m : mresult) : xdef :=
  match m with (value, t, r, g) => mkX value t [x_item r] g v end.

(** 361-451 [matching_definition_exp], 453-487 [parse_each_value], 503-550 [parse_each_key];
    fuel bounds the nesting of definitions. *)
Fixpoint definition_exp (fuel : nat) : parser xdef := fun s =>
  match fuel with
  | O => None
  | S f =>
    match next s with
    | Some (TMatching, _, r) => pbind parse_matching (fun m => ret (x_of_matching m)) r
    | Some (TNotEmpty, _, r) =>
        pbind parse_not_empty (fun x => ret (mkX (fst (fst x)) (snd (fst x)) [inl (XRule RNotEmpty)] (snd x) v)) r
    | Some (TEachKey, _, r) => pbind (brackets (definition_exp f)) (fun d => ret (one_rule (XEachKey d))) r
    | Some (TEachValue, _, r) => pbind (brackets (definition_exp f)) (fun d => ret (one_rule (XEachValue d))) r
    | Some (TAtLeast, _, r) => pbind parse_length_param (fun n => ret (one_rule (XRule (RMinType n)))) r
    | Some (TAtMost, _, r) => pbind parse_length_param (fun n => ret (one_rule (XRule (RMaxType n)))) r
    | _ => None
    end
  end.

(** 348-358: the rest of [matching_definition]. Anything that is no token ends the loop, and is not looked at again
    when nothing comes after it. *)
Fixpoint definition_rest (fuel depth : nat) (d : xdef) (s : str) : option xdef :=
  match fuel with
  | O => None
  | S f =>
    match next s with
    | None => Some d
    | Some (TErr, _, r) => if is_nil r then Some d else None
    | Some (TComma, _, r) =>
        match definition_exp depth r with
        | Some (d', r') => definition_rest f depth (x_merge d d') r'
        | None => None
        end
    | Some _ => None
    end
  end.
Definition matching_definition : option xdef :=
  match definition_exp (S (length v)) v with
  | Some (d, r) => definition_rest (S (length v)) (S (length v)) d r
  | None => None
  end.
End Whole.

(** 316-323 [parse_matcher_def]. *)
Definition parse_matcher_def (v : str) : option xdef :=
  match v with [] => None | _ => matching_definition v end.

(** 327-345 [is_matcher_def]. *)
Definition is_matcher_def (v : str) : bool :=
  match next v with
  | Some (TMatching, _, _) | Some (TNotEmpty, _, _) | Some (TEachKey, _, _) | Some (TEachValue, _, _) => true
  | _ => false
  end.
End Lexer.
