(** Specification vocabulary for query strings (C26, C27, C40, C41). Nothing here
    refers to the model of the code, only to strings and maps. *)
From Coq Require Import List NArith Bool.
From Verif Require Import Base.
Import ListNotations.
Open Scope N_scope.

(** The entry of a map (an association list) for a key. *)
Fixpoint entry {A} (k : str) (m : list (str * A)) : option A :=
  match m with
  | [] => None
  | (k', v) :: m' => if str_eqb k k' then Some v else entry k m'
  end.
(** Two maps with the same entries: equality of Rust's [HashMap]s. *)
Definition same_map {A} (m n : list (str * A)) : Prop := forall k, entry k m = entry k n.

(** The names the query string builder writes unchanged and the parser reads
    unchanged: ASCII text without percent sign (37), ampersand (38), plus (43) and
    equals sign (61). *)
Definition safe_name (s : str) : Prop :=
  s <> [] /\ forall c, In c s -> c < 128 /\ c <> 37 /\ c <> 38 /\ c <> 43 /\ c <> 61.
(** Values: any ASCII text whose characters have a two digit code. *)
Definition two_digit_text (s : str) : Prop := forall c, In c s -> 16 <= c < 128.
(** A query: every name has at least one value. *)
Definition query_ok (m : list (str * list (option str))) : Prop :=
  NoDup (map fst m) /\ m <> [] /\
  forall k vs, In (k, vs) m ->
    safe_name k /\ vs <> [] /\ forall s, In (Some s) vs -> two_digit_text s.

(** The code point has an odd number of hexadecimal digits. *)
Definition odd_hex_length (c : N) : Prop := c < 16 \/ 256 <= c < 4096 \/ 65536 <= c < 1048576.
(** The characters that are not percent encoded: ASCII letters, digits, hyphen, space. *)
Definition unreserved (c : N) : Prop :=
  c = 45 \/ c = 32 \/ 48 <= c <= 57 \/ 65 <= c <= 90 \/ 97 <= c <= 122.

(** Percent encoding of a byte sequence, as any standard conforming client may
    write it: a byte is written as two hexadecimal digits of either case after a
    percent sign, or - for ASCII other than percent and plus - as itself; a space
    may be written as a plus sign. *)
Inductive digit_of : N -> N -> Prop :=
| digit_dec : forall d, d < 10 -> digit_of d (48 + d)
| digit_low : forall d, 10 <= d < 16 -> digit_of d (87 + d)
| digit_up : forall d, 10 <= d < 16 -> digit_of d (55 + d).
Inductive encodes : list N -> str -> Prop :=
| enc_nil : encodes [] []
| enc_raw : forall b bs q, b < 128 -> b <> 37 -> b <> 43 -> encodes bs q -> encodes (b :: bs) (b :: q)
| enc_pct : forall h l x y bs q, digit_of h x -> digit_of l y -> encodes bs q ->
    encodes (h * 16 + l :: bs) (37 :: x :: y :: q)
| enc_plus : forall bs q, encodes bs q -> encodes (32 :: bs) (43 :: q).

(** The bytes any text is read as: a percent sign with two hexadecimal digits is a byte, a plus
    sign a space; anything else stands for itself, reduced to eight bits. *)
Inductive read_as : str -> list N -> Prop :=
| rd_nil : read_as [] []
| rd_pct : forall h l x y q bs, digit_of h x -> digit_of l y -> read_as q bs -> read_as (37 :: x :: y :: q) (h * 16 + l :: bs)
| rd_bad : forall x y q bs, (forall h l, digit_of h x -> digit_of l y -> False) -> read_as q bs ->
    read_as (37 :: x :: y :: q) (37 :: x mod 256 :: y mod 256 :: bs)
| rd_end_one : forall x, read_as [37; x] [37; x mod 256]
| rd_end : read_as [37] [37]
| rd_plus : forall q bs, read_as q bs -> read_as (43 :: q) (32 :: bs)
| rd_char : forall c q bs, c <> 37 -> c <> 43 -> read_as q bs -> read_as (c :: q) (c mod 256 :: bs).

(** The values a list of name and value pairs gives a name, in order. *)
Definition values_of (k : str) (l : list (str * option str)) : list (option str) :=
  map snd (filter (fun kv => str_eqb k (fst kv)) l).
(** One part of a query string for a name and an optional value ([to_bytes] is UTF-8):
    the encoded name, which is not empty and contains no & and =, then possibly = and the
    encoded value, which contains no &. *)
Definition part_for (to_bytes : str -> list N) (kv : str * option str) (part : str) : Prop :=
  exists a, encodes (to_bytes (fst kv)) a /\ ~ In 38 a /\ ~ In 61 a /\
  match snd kv with
  | None => a <> [] /\ part = a
  | Some s => exists b, encodes (to_bytes s) b /\ ~ In 38 b /\ part = a ++ 61 :: b
  end.
