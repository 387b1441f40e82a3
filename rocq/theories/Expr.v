(** Model of rust/pact_models/src/expression_parser.rs (provider state
    expressions "... ${name} ..." and the types a value is converted to) and of
    [generate_value_from_context] (generators/mod.rs:775-783).

    The context (a [HashMap<&str, Value>]) is a function from names to values.
    Byte offsets are offsets in the list of characters: the characters searched
    for are ASCII, so every slice starts and ends at a character in both. *)
From Coq Require Import String List NArith ZArith Bool Floats.SpecFloat.
From Verif Require Import Base Json Text.
Import ListNotations.
Open Scope N_scope.

(** What a name stands for: [ValueResolver::resolve_value] (expression_parser.rs:338-361). *)
Definition context := str -> option json.

(** [str::find("${")]. *)
Fixpoint find_open (s : str) : option nat :=
  match s with
  | [] => None
  | c :: s' =>
      if (c =? 36) && match s' with d :: _ => d =? 123 | [] => false end then Some O
      else option_map S (find_open s')
  end.
(** [str::find(char)]. *)
Fixpoint find_char (c : N) (s : str) : option nat :=
  match s with
  | [] => None
  | d :: s' => if d =? c then Some O else option_map S (find_char c s')
  end.

(** expression_parser.rs:364-366 [contains_expressions]. *)
Definition contains_expressions (s : str) : bool :=
  match find_open s with Some _ => true | None => false end.

Section Expand.
Variable ctx : context.

(** expression_parser.rs:377-402, the loop of [replace_expressions]: the pieces
    of the result and what is left of the text. [end_position - index] is a
    subtraction of [usize]: when the first closing brace comes before the "${" it
    panics (overflow check) or, without the check, the slice after it does.
    [fuel] bounds the number of rounds; every round shortens the text. *)
Fixpoint expand (fuel : nat) (buffer : str) (result : list json) : outcome (list json * str) unit :=
  match fuel with
  | O => Err tt
  | S fuel' =>
      match find_open buffer with
      | None => Ok (result, buffer)
      | Some index =>
          let result := if (0 <? index)%nat then result ++ [JStr (firstn index buffer)] else result in
          match find_char 125 buffer with
          | None => Err tt
          | Some end_position =>
              if (end_position <? index)%nat then Panic
              else
                let rest := skipn (end_position + 1) buffer in
                if (2 <? end_position - index)%nat then
                  let key := firstn (end_position - (index + 2)) (skipn (index + 2) buffer) in
                  match ctx key with
                  | Some lookup => expand fuel' rest (result ++ [lookup])
                  | None => Err tt
                  end
                else expand fuel' rest result
          end
      end
  end.

Variable w : world.

(** expression_parser.rs:377-409 [replace_expressions]. *)
Definition replace_expressions (s : str) : outcome json unit :=
  bind (expand (S (length s)) s []) (fun rb =>
    match rb with
    | (result, buffer) =>
        let result := match buffer with [] => result | _ => result ++ [JStr buffer] end in
        match result with
        | [v] => Ok v
        | _ => Ok (JStr (flat_map (json_to_string w) result))
        end
    end).

(** expression_parser.rs:369-375 [parse_expression]. *)
Definition parse_expression (s : str) : outcome json unit :=
  if contains_expressions s then replace_expressions s else Ok (JStr s).

(** generators/mod.rs:775-783 [generate_value_from_context], before the value is
    wrapped with its type. *)
Definition value_from_context (expression : str) : outcome json unit :=
  if contains_expressions expression then parse_expression expression
  else match ctx expression with Some v => Ok v | None => Err tt end.
End Expand.

(** * Conversion to the declared type *)
(** expression_parser.rs:15-30 [enum DataType]. *)
Inductive data_type := DString | DInteger | DDecimal | DFloat | DRaw | DBoolean.

(** expression_parser.rs:39-53 [From<Value> for DataType]. *)
Definition data_type_from (v : json) : data_type :=
  match v with
  | JStr s =>
      let u := map ascii_up s in
      if str_eqb u (S_ "STRING") then DString
      else if str_eqb u (S_ "INTEGER") then DInteger
      else if str_eqb u (S_ "DECIMAL") then DDecimal
      else if str_eqb u (S_ "FLOAT") then DFloat
      else if str_eqb u (S_ "BOOLEAN") then DBoolean
      else DRaw
  | _ => DRaw
  end.
(** expression_parser.rs:16 the derived [Serialize] (used by generators/mod.rs:190)
    and 56-67 [Into<Value> for DataType]: both give the name. *)
Definition data_type_to (d : data_type) : json :=
  JStr (match d with
        | DString => S_ "STRING" | DInteger => S_ "INTEGER" | DDecimal => S_ "DECIMAL"
        | DFloat => S_ "FLOAT" | DRaw => S_ "RAW" | DBoolean => S_ "BOOLEAN"
        end).

(** [str::parse::<i64>()]. *)
Definition parse_i64 (s : str) : option Z :=
  let '(neg, ds) := match s with
                    | c :: s' => if c =? 43 then (false, s') else if c =? 45 then (true, s') else (false, s)
                    | [] => (false, [])
                    end in
  match ds with
  | [] => None
  | _ => if all_digits ds then
           let v := dec_value ds 0 in
           if neg then if v <=? 9223372036854775808 then Some (- Z.of_N v)%Z else None
           else if v <? 9223372036854775808 then Some (Z.of_N v) else None
         else None
  end.

(** [u64 as f64] / [i64 as f64]: rounded to nearest even. *)
Definition Z_to_float (z : Z) : spec_float := binary_normalize 53 1024 z 0 false.

(** [f64 as i64]: towards zero, saturating, NaN is 0. *)
Definition float_to_i64 (f : spec_float) : Z :=
  match f with
  | S754_finite neg m e =>
      let v := match e with
               | Zneg p => Z.div (Zpos m) (2 ^ Zpos p)
               | Z0 => Zpos m
               | Zpos p => (Zpos m * 2 ^ Zpos p)%Z
               end in
      if neg then Z.max (- 9223372036854775808) (- v) else Z.min 9223372036854775807 v
  | S754_infinity neg => if neg then (- 9223372036854775808)%Z else 9223372036854775807%Z
  | _ => 0%Z
  end.

(** [json!] of an [i64] and of an [f64] (not finite: null). *)
Definition json_of_i64 (z : Z) : json :=
  if (0 <=? z)%Z then JNum (PosInt (Z.to_N z)) else JNum (NegInt z).
Definition json_of_f64 (f : spec_float) : json :=
  if float_finite f then JNum (Float f) else JNull.

Section Convert.
Variable w : world.
(** [str::parse::<f64>()]; [None] is [Err]. *)
Variable parse_f64 : str -> option spec_float.

(** [str::parse::<bool>()]. *)
Definition parse_bool (s : str) : option bool :=
  if str_eqb s (S_ "true") then Some true
  else if str_eqb s (S_ "false") then Some false
  else None.

(** [n > 0.0] *)
Definition float_positive (f : spec_float) : bool := SFltb (S754_zero false) f.

Definition of_option {A} (o : option A) : outcome A unit :=
  match o with Some a => Ok a | None => Err tt end.

(** expression_parser.rs:87-151 [DataValue::as_json]. [n.as_u64], [n.as_i64],
    [n.as_f64] in this order: [PosInt], [NegInt], [Float]. *)
Definition as_json (d : data_type) (v : json) : outcome json unit :=
  match d with
  | DString => match v with JStr s => Ok (JStr s) | _ => Ok (JStr (json_show w v)) end
  | DInteger =>
      match v with
      | JNull => Ok (JNum (PosInt 0))
      | JBool b => Ok (JNum (PosInt (if b then 1 else 0)))
      | JNum (PosInt n) => Ok (JNum (PosInt n))
      | JNum (NegInt z) => Ok (JNum (NegInt z))
      | JNum (Float f) => Ok (json_of_i64 (float_to_i64 f))
      | JStr s => bind (of_option (parse_usize s)) (fun n => Ok (JNum (PosInt n)))
      | JArr _ | JObj _ => Err tt
      end
  | DFloat | DDecimal =>
      match v with
      | JNull => Ok (JNum (Float (S754_zero false)))
      | JBool b => Ok (JNum (Float (if b then Z_to_float 1 else S754_zero false)))
      | JNum (PosInt n) => Ok (json_of_f64 (Z_to_float (Z.of_N n)))
      | JNum (NegInt z) => Ok (json_of_f64 (Z_to_float z))
      | JNum (Float f) => Ok (json_of_f64 f)
      | JStr s => bind (of_option (parse_f64 s)) (fun f => Ok (json_of_f64 f))
      | JArr _ | JObj _ => Err tt
      end
  | DRaw => Ok v
  | DBoolean =>
      match v with
      | JNull => Ok (JBool false)
      | JBool b => Ok (JBool b)
      | JNum (PosInt n) => Ok (JBool (0 <? n))
      | JNum (NegInt z) => Ok (JBool (0 <? z)%Z)
      | JNum (Float f) => Ok (JBool (float_positive f))
      | JStr s => bind (of_option (parse_bool s)) (fun b => Ok (JBool b))
      | JArr _ | JObj _ => Err tt
      end
  end.

(** [u64 as i64]: two's complement. *)
Definition u64_to_i64 (n : N) : Z :=
  if n <? 9223372036854775808 then Z.of_N n else (Z.of_N n - 18446744073709551616)%Z.

(** expression_parser.rs:220-251 [TryFrom<DataValue> for i64], the data type being INTEGER. *)
Definition try_i64 (v : json) : outcome Z unit :=
  match v with
  | JNull => Ok 0%Z
  | JBool b => Ok (if b then 1 else 0)%Z
  | JNum (PosInt n) => Ok (u64_to_i64 n)
  | JNum (NegInt z) => Ok z
  | JNum (Float f) => Ok (float_to_i64 f)
  | JStr s => of_option (parse_i64 s)
  | _ => Err tt
  end.
(** 253-284 [TryFrom<DataValue> for f64], the data type being FLOAT or DECIMAL. *)
Definition try_f64 (v : json) : outcome spec_float unit :=
  match v with
  | JNull => Ok (S754_zero false)
  | JBool b => Ok (if b then Z_to_float 1 else S754_zero false)
  | JNum (PosInt n) => Ok (Z_to_float (Z.of_N n))
  | JNum (NegInt z) => Ok (Z_to_float z)
  | JNum (Float f) => Ok f
  | JStr s => of_option (parse_f64 s)
  | _ => Err tt
  end.
(** 286-307 [TryFrom<DataValue> for bool]. *)
Definition try_bool (v : json) : outcome bool unit :=
  match v with
  | JNull => Ok false
  | JBool b => Ok b
  | JNum (PosInt n) => Ok (0 <? n)
  | JNum (NegInt z) => Ok (0 <? z)%Z
  | JNum (Float f) => Ok (float_positive f)
  | JStr s => of_option (parse_bool s)
  | _ => Err tt
  end.

(** [Err] of a [Display] implementation makes [to_string] panic. *)
Definition display {A} (o : outcome A unit) (show : A -> str) : outcome str unit :=
  match o with Ok a => Ok (show a) | _ => Panic end.

(** expression_parser.rs:309-337 [Display for DataValue], called through
    [to_string] (generators/mod.rs:999). *)
Definition data_value_to_string (d : data_type) (v : json) : outcome str unit :=
  match d with
  | DString | DRaw => Ok (json_to_string w v)
  | DInteger => display (try_i64 v) show_Z
  | DFloat | DDecimal => display (try_f64 v) (display_float w)
  | DBoolean => display (try_bool v) (fun b => if b then S_ "true" else S_ "false")
  end.

(** generators/mod.rs:1166-1180: a provider state generator in a JSON body. *)
Definition provider_state_json (ctx : context) (expression : str) (d : option data_type) : outcome json unit :=
  bind (value_from_context ctx w expression) (as_json (match d with Some d => d | None => DRaw end)).
(** generators/mod.rs:989-1000: in a path, header or query parameter. *)
Definition provider_state_text (ctx : context) (expression : str) (d : option data_type) : outcome str unit :=
  bind (value_from_context ctx w expression) (data_value_to_string (match d with Some d => d | None => DRaw end)).
End Convert.
