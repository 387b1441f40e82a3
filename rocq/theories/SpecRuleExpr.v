(** What a matching rule definition expression means: the documented grammar
    (the head of matchingrules/expressions.rs and matching-rule-definition.g4),
    written over the words of the text.

    [strict = true] is the documented language. [strict = false] adds the texts that are
    accepted beyond it (marked "loose" below). *)
From Coq Require Import String List NArith ZArith Bool.
From Verif Require Import Base PathExp Json MatchingRules Expr Generators RuleExpr.
Import ListNotations.
Open Scope N_scope.

(** * Words and blanks *)
Definition blank (c : N) : Prop := c = 32 \/ c = 9 \/ c = 10 \/ c = 12.

(** [reads ws s r]: the text [s] is the words [ws], with blanks before each of them, followed by [r]. *)
Inductive reads : list str -> str -> str -> Prop :=
| reads_nil : forall s, reads [] s s
| reads_cons : forall b w ws s r, Forall blank b -> reads ws s r -> reads (w :: ws) (b ++ w ++ s) r.
Definition spaced (ws : list str) (s : str) : Prop := exists r, reads ws s r /\ Forall blank r.

(** * Numbers and strings *)
Definition digit (c : N) : Prop := 48 <= c /\ c <= 57.
Definition digits (s : str) : Prop := s <> [] /\ Forall digit s.
(** A whole number that fits in 64 bits. *)
Definition int_word (w : str) : Prop :=
  (digits w /\ dec_value w 0 < 18446744073709551616) \/
  (exists ds, w = 45 :: ds /\ digits ds /\ dec_value ds 0 <= 9223372036854775808).
(** A number with a fraction. Loose: anything after the dot. *)
Definition dec_word (strict : bool) (w : str) : Prop :=
  exists i f, int_word i /\ w = i ++ 46 :: f /\ (strict = true -> digits f).

(** A text in single quotes and what is between the quotes. Loose: quotes may occur after a backslash, and all
    quotes at the end are taken off. *)
Definition ends_in (c : N) (s : str) : Prop := exists a, s = a ++ [c].
Definition quoted (strict : bool) (w raw : str) : Prop :=
  if strict then w = [39] ++ raw ++ [39] /\ ~ In 39 raw /\ ~ ends_in 92 raw
  else exists q1 q2, w = q1 ++ raw ++ q2 /\ Forall (eq 39) (q1 ++ q2) /\ (2 <= length (q1 ++ q2))%nat /\
         (forall t, raw <> 39 :: t) /\ ~ ends_in 39 raw /\
         (forall a b, raw = a ++ 39 :: b -> ends_in 92 a).

(** A number in base 16, below 2^32; Rust also takes a plus sign. *)
Definition hex_char (c n : N) : Prop :=
  (48 <= c <= 57 /\ n = c - 48) \/ (65 <= c <= 70 /\ n = c - 65 + 10) \/ (97 <= c <= 102 /\ n = c - 97 + 10).
Inductive hex_digits : str -> N -> Prop :=
| hex_one : forall c n, hex_char c n -> hex_digits [c] n
| hex_more : forall s c n m, hex_digits s n -> hex_char c m -> hex_digits (s ++ [c]) (n * 16 + m).
Definition hex_number (s : str) (n : N) : Prop :=
  (hex_digits s n \/ exists s', s = 43 :: s' /\ hex_digits s' n) /\ n < 4294967296.
(** The character with a code point; U+FFFD when there is none. *)
Definition unicode_scalar (n : N) : Prop := n < 55296 \/ 57344 <= n <= 1114111.
Definition char_of (n c : N) : Prop := (unicode_scalar n /\ c = n) \/ (~ unicode_scalar n /\ c = 65533).

(** [unescaped raw text]: the escape sequences. *)
Inductive unescaped : str -> str -> Prop :=
| un_nil : unescaped [] []
| un_char : forall c r t, c <> 92 -> unescaped r t -> unescaped (c :: r) (c :: t)
| un_backslash : forall r t, unescaped r t -> unescaped (92 :: 92 :: r) (92 :: t)
| un_b : forall r t, unescaped r t -> unescaped (92 :: 98 :: r) (8 :: t)
| un_f : forall r t, unescaped r t -> unescaped (92 :: 102 :: r) (12 :: t)
| un_n : forall r t, unescaped r t -> unescaped (92 :: 110 :: r) (10 :: t)
| un_r : forall r t, unescaped r t -> unescaped (92 :: 114 :: r) (13 :: t)
| un_t : forall r t, unescaped r t -> unescaped (92 :: 116 :: r) (9 :: t)
| un_u4 : forall a b c d n x r t, a <> 123 -> hex_number [a; b; c; d] n -> char_of n x ->
    unescaped r t -> unescaped (92 :: 117 :: a :: b :: c :: d :: r) (x :: t)
| un_braces : forall h n x r t, ~ In 125 h -> hex_number h n -> char_of n x ->
    unescaped r t -> unescaped (92 :: 117 :: 123 :: h ++ 125 :: r) (x :: t)
| un_other : forall c r t, ~ In c [92; 98; 102; 110; 114; 116; 117] ->
    unescaped r t -> unescaped (92 :: c :: r) (92 :: c :: t)
| un_last : unescaped [92] [92].

Definition string_word (strict : bool) (w text : str) : Prop :=
  exists raw, quoted strict w raw /\ unescaped raw text.

(** * Values *)
Definition type_of_data (t : value_type) (d : data_type) : Prop :=
  match t with
  | VUnknown => d = DRaw
  | VString => d = DString
  | VNumber | VDecimal => d = DDecimal
  | VInteger => d = DInteger
  | VBoolean => d = DBoolean
  end.

(** A primitive value: its words, text and type. The escapes of a string are left as they are. *)
Inductive primitive (strict : bool) : list str -> str -> value_type -> Prop :=
| pr_string : forall w raw, quoted strict w raw -> primitive strict [w] raw VString
| pr_null : primitive strict [S_ "null"] [] VString
| pr_int : forall w, int_word w -> primitive strict [w] w VInteger
| pr_dec : forall w, dec_word strict w -> primitive strict [w] w VDecimal
| pr_true : primitive strict [S_ "true"] (S_ "true") VBoolean
| pr_false : primitive strict [S_ "false"] (S_ "false") VBoolean.

(** [('expression', value)] after [fromProviderState]. *)
Inductive from_state (strict : bool) : list str -> str -> value_type -> generator -> Prop :=
| fs_intro : forall e text ws v t d,
    string_word strict e text -> primitive strict ws v t -> type_of_data t d ->
    from_state strict ([S_ "("; e; S_ ","] ++ ws ++ [S_ ")"]) v t (GProviderState text (Some d)).

Inductive value (strict : bool) : list str -> str -> value_type -> option generator -> Prop :=
| va_plain : forall ws v t, primitive strict ws v t -> value strict ws v t None
| va_state : forall ws v t g, from_state strict ws v t g ->
    value strict (S_ "fromProviderState" :: ws) v t (Some g).

(** Loose: after a format the word only has to contain [fromProviderState]. *)
Definition state_word (strict : bool) (w : str) : Prop :=
  if strict then w = S_ "fromProviderState" else exists a b, w = a ++ S_ "fromProviderState" ++ b.

(** * What is between the brackets of [matching(...)]: words, value, type, rule or reference, generator *)
Definition number_word (strict : bool) (w : str) : Prop := int_word w \/ dec_word strict w.
Section Grammar.
Variable w : world.
Variable strict : bool.
Inductive matcher : list str -> str -> value_type -> rule + str -> option generator -> Prop :=
| ma_equal : forall ws v t g, value strict ws v t g -> matcher (S_ "equalTo" :: S_ "," :: ws) v t (inl REquality) g
| ma_type : forall ws v t g, value strict ws v t g -> matcher (S_ "type" :: S_ "," :: ws) v t (inl RType) g
| ma_regex : forall a r b s, string_word strict a r -> string_word strict b s ->
    matcher [S_ "regex"; S_ ","; a; S_ ","; b] s VString (inl (RRegex r)) None
| ma_content : forall a r b s, string_word strict a r -> string_word strict b s ->
    matcher [S_ "contentType"; S_ ","; a; S_ ","; b] s VUnknown (inl (RContentType r)) None
| ma_include : forall a s, string_word strict a s ->
    matcher [S_ "include"; S_ ","; a] s VString (inl (RInclude s)) None
| ma_semver : forall a s, string_word strict a s -> semver_ok w s = true ->
    matcher [S_ "semver"; S_ ","; a] s VString (inl RSemver) None
| ma_boolean : forall a, a = S_ "true" \/ a = S_ "false" ->
    matcher [S_ "boolean"; S_ ","; a] a VBoolean (inl RBoolean) None
| ma_number : forall a, number_word strict a -> matcher [S_ "number"; S_ ","; a] a VNumber (inl RNumber) None
| ma_integer : forall a, int_word a -> matcher [S_ "integer"; S_ ","; a] a VInteger (inl RInteger) None
| ma_decimal : forall a, number_word strict a -> matcher [S_ "decimal"; S_ ","; a] a VDecimal (inl RDecimal) None
| ma_number_state : forall ws v t g, from_state strict ws v t g ->
    matcher ([S_ "number"; S_ ","; S_ "fromProviderState"] ++ ws) v t (inl RNumber) (Some g)
| ma_integer_state : forall ws v t g, from_state strict ws v t g ->
    matcher ([S_ "integer"; S_ ","; S_ "fromProviderState"] ++ ws) v t (inl RInteger) (Some g)
  (* not a decimal rule, see C74_why_decimal_from_state *)
| ma_decimal_state : forall ws v t g, from_state strict ws v t g ->
    matcher ([S_ "decimal"; S_ ","; S_ "fromProviderState"] ++ ws) v t (inl RNumber) (Some g)
| ma_format : forall k r g a f b s, In (k, r, g)
      [(S_ "datetime", RTimestamp f, GDateTime (Some f) None);
       (S_ "date", RDate f, GDate (Some f) None);
       (S_ "time", RTime f, GTime (Some f) None)] ->
    string_word strict a f -> string_word strict b s ->
    matcher [k; S_ ","; a; S_ ","; b] s VString (inl r) (Some g)
| ma_format_state : forall k r a f x ws v t g, In (k, r)
      [(S_ "datetime", RTimestamp f); (S_ "date", RDate f); (S_ "time", RTime f)] ->
    string_word strict a f -> state_word strict x -> from_state strict ws v t g ->
    matcher ([k; S_ ","; a; S_ ","; x] ++ ws) v t (inl r) (Some g)
| ma_reference : forall a s, string_word strict a s -> matcher [S_ "$"; a] s VUnknown (inr s) None.

(** * One definition *)
Definition as_item (r : rule + str) : xrule + str := match r with inl a => inl (XRule a) | inr n => inr n end.
Definition in_brackets (ws : list str) : list str := S_ "(" :: ws ++ [S_ ")"].
Inductive one_def (expr : str) : list str -> xdef -> Prop :=
| od_matching : forall ws v t r g, matcher ws v t r g ->
    one_def expr (S_ "matching" :: in_brackets ws) (mkX v t [as_item r] g expr)
| od_not_empty : forall ws v t g, value strict ws v t g ->
    one_def expr (S_ "notEmpty" :: in_brackets ws) (mkX v t [inl (XRule RNotEmpty)] g expr)
| od_each_key : forall ws d, one_def expr ws d ->
    one_def expr (S_ "eachKey" :: in_brackets ws) (mkX [] VUnknown [inl (XEachKey d)] None expr)
| od_each_value : forall ws d, one_def expr ws d ->
    one_def expr (S_ "eachValue" :: in_brackets ws) (mkX [] VUnknown [inl (XEachValue d)] None expr)
| od_at_least : forall a, digits a -> dec_value a 0 < 18446744073709551616 ->
    one_def expr (S_ "atLeast" :: in_brackets [a]) (mkX [] VUnknown [inl (XRule (RMinType (dec_value a 0)))] None expr)
| od_at_most : forall a, digits a -> dec_value a 0 < 18446744073709551616 ->
    one_def expr (S_ "atMost" :: in_brackets [a]) (mkX [] VUnknown [inl (XRule (RMaxType (dec_value a 0)))] None expr).

(** * Definitions separated by commas *)
Inductive all_defs (expr : str) : list str -> list xdef -> Prop :=
| ad_one : forall ws d, one_def expr ws d -> all_defs expr ws [d]
| ad_more : forall ws d ws' ds, one_def expr ws d -> all_defs expr ws' ds ->
    all_defs expr (ws ++ [S_ ","] ++ ws') (d :: ds).
End Grammar.

(** The definition that several together make: the first value that is not empty, the first generator, all the rules in order,
    and the type that says most. *)
Definition rank (t : value_type) : N :=
  match t with VUnknown => 0 | VBoolean => 1 | VNumber => 2 | VInteger => 3 | VDecimal => 4 | VString => 5 end.
Inductive first_that {A} (P : A -> Prop) : list A -> A -> Prop :=
| ft_here : forall x l, P x -> first_that P (x :: l) x
| ft_later : forall x y l, ~ P x -> first_that P l y -> first_that P (x :: l) y.
Definition first_or {A} (none : A) (l : list A) (y : A) : Prop :=
  first_that (fun x => x <> none) l y \/ (Forall (eq none) l /\ y = none).
Record together (ds : list xdef) (d : xdef) : Prop := mkTogether {
  tg_value : first_or [] (map x_value ds) (x_value d);
  tg_gen : first_or None (map x_gen ds) (x_gen d);
  tg_rules : x_rules d = concat (map x_rules ds);
  tg_type_in : In (x_type d) (map x_type ds);
  tg_type_max : forall t, In t (map x_type ds) -> rank t <= rank (x_type d)
}.
