(** Vocabulary for provider state expressions: what a text with "${name}" in it
    is made of and what it stands for. Independent of Expr.v's functions (it uses
    [context], the function from names to values). *)
From Coq Require Import String List NArith ZArith Bool Floats.SpecFloat.
From Verif Require Import Base Json Expr.
Import ListNotations.
Open Scope N_scope.

Definition dollar : N := 36.
Definition open_brace : N := 123.
Definition close_brace : N := 125.

(** The text contains "${". *)
Definition has_open (s : str) : Prop := exists a b, s = a ++ [dollar; open_brace] ++ b.

(** A text is plain text alternating with references "${name}". *)
Inductive piece := Text (t : str) | Value (name : str).

(** [complete s ps]: [s] is a sequence of plain texts without "${" and without a
    closing brace, each followed by a reference whose name has no closing brace. *)
Inductive complete : str -> list piece -> Prop :=
| complete_nil : complete [] []
| complete_ref : forall pre name rest ps,
    ~ has_open pre -> ~ In close_brace pre -> ~ In close_brace name ->
    complete rest ps ->
    complete (pre ++ [dollar; open_brace] ++ name ++ [close_brace] ++ rest) (Text pre :: Value name :: ps).

(** A whole expression: references, then plain text (which may contain braces). *)
Definition expression (s : str) (ps : list piece) : Prop :=
  exists front tail ps', s = front ++ tail /\ complete front ps' /\ ~ has_open tail /\ ps = ps' ++ [Text tail].

(** All the (non-empty) names are known. *)
Definition known (ctx : context) (ps : list piece) : Prop :=
  Forall (fun p => match p with Text _ => True | Value n => n = [] \/ exists v, ctx n = Some v end) ps.

(** The values an expression consists of: empty texts and empty references contribute nothing. *)
Definition values_of (ctx : context) (ps : list piece) : list json :=
  flat_map (fun p => match p with
                     | Text [] => []
                     | Text t => [JStr t]
                     | Value [] => []
                     | Value n => match ctx n with Some v => [v] | None => [] end
                     end) ps.

(** What it stands for: a single value keeps its type, otherwise the values are
    joined as texts. *)
Definition stands_for (w : world) (vs : list json) : json :=
  match vs with
  | [v] => v
  | _ => JStr (concat (map (json_to_string w) vs))
  end.

(** The text aborts the program: after references to known values comes a closing brace that
    is followed by "${", with no "${" between. *)
Definition stray_brace (ctx : context) (s : str) : Prop :=
  exists front ps pre rest, s = front ++ pre ++ [dollar; open_brace] ++ rest /\
    complete front ps /\ known ctx ps /\ ~ has_open pre /\ In close_brace pre.

(** After references to known values comes an unknown name, or a "${" without a closing brace. *)
Definition unresolved (ctx : context) (s : str) : Prop :=
  exists front ps pre rest, s = front ++ pre ++ [dollar; open_brace] ++ rest /\
    complete front ps /\ known ctx ps /\ ~ has_open pre /\ ~ In close_brace pre /\
    (~ In close_brace rest \/
     exists name rest', rest = name ++ [close_brace] ++ rest' /\ ~ In close_brace name /\ name <> [] /\ ctx name = None).

(** Values of a data type in a JSON body. *)
Definition of_type (d : data_type) (v : json) : Prop :=
  match d with
  | DString => exists s, v = JStr s
  | DInteger => (exists n, v = JNum (PosInt n)) \/ (exists z, v = JNum (NegInt z))
  | DDecimal | DFloat => exists f, v = JNum (Float f)
  | DBoolean => exists b, v = JBool b
  | DRaw => True
  end.

(** Values that cannot be converted: arrays and objects to anything but a text,
    and texts that do not read as a value of the type. *)
Definition not_convertible (parses : str -> bool) (v : json) : Prop :=
  match v with
  | JArr _ | JObj _ => True
  | JStr s => parses s = false
  | _ => False
  end.
Definition some {A} (o : option A) : bool := match o with Some _ => true | None => false end.
(** A whole number without sign (or with "+"), at most 20 digits worth. *)
Definition unsigned_text (s : str) : Prop := exists n, parse_usize s = Some n.

(** * What converted values are worth *)
(** A finite double, truncated towards zero and kept within 64 bits. *)
Definition truncated (f : spec_float) : Z :=
  match f with
  | S754_finite neg m e =>
      let a := (if (0 <=? e) then Zpos m * 2 ^ e else Zpos m / 2 ^ (- e))%Z in
      Z.max (- 2 ^ 63) (Z.min (2 ^ 63 - 1) (if neg then - a else a))%Z
  | _ => 0%Z
  end.
(** The whole number a value stands for; a text stands for the number it is written as. *)
Definition whole (v : json) : option Z :=
  match v with
  | JNull => Some 0%Z
  | JBool true => Some 1%Z
  | JBool false => Some 0%Z
  | JNum (PosInt n) => Some (Z.of_N n)
  | JNum (NegInt z) => Some z
  | JNum (Float f) => Some (truncated f)
  | JStr s => option_map Z.of_N (parse_usize s)
  | _ => None
  end.
(** True values: true, "true" and what is greater than zero. *)
Definition holds (v : json) : Prop :=
  match v with
  | JBool b => b = true
  | JNum (PosInt n) => n <> 0
  | JNum (Float (S754_finite neg _ _)) => neg = false
  | JStr s => s = S_ "true"
  | _ => False
  end.
(** This double is exactly this whole number. *)
Definition is_whole (f : spec_float) (z : Z) : Prop :=
  match f with
  | S754_zero _ => z = 0%Z
  | S754_finite neg m e => (e <= 0 /\ (if neg then - Zpos m else Zpos m) = z * 2 ^ (- e))%Z
  | _ => False
  end.
