(** Model of query string encoding and decoding:
    rust/pact_models/src/query_strings.rs. *)
From Coq Require Import Ascii String List Arith NArith ZArith Lia Bool.
From Verif Require Import Base Json Text.
Import ListNotations.
Open Scope N_scope.

(** * Decoding *)
(** The value of an ASCII hexadecimal digit (the [hex] crate). *)
Definition hex_value (c : N) : option N :=
  if is_digit c then Some (c - 48)
  else if (97 <=? c) && (c <=? 102) then Some (c - 87)
  else if (65 <=? c) && (c <=? 70) then Some (c - 55)
  else None.

(** query_strings.rs:12-64 [decode_query], the bytes it collects. [c as u8]
    keeps the low eight bits. The two characters after a percent sign are
    decoded when both are hexadecimal digits: any other pair is an error of
    [from_hex] (other characters are not digits or make the length odd). *)
Fixpoint decode_bytes (s : str) : list N :=
  match s with
  | [] => []
  | c :: s' =>
      if c =? 37 then
        match s' with
        | v1 :: v2 :: s'' =>
            match hex_value v1, hex_value v2 with
            | Some a, Some b => (a * 16 + b) :: decode_bytes s''
            | _, _ => 37 :: v1 mod 256 :: v2 mod 256 :: decode_bytes s''
            end
        | [v1] => [37; v1 mod 256]
        | [] => [37]
        end
      else if c =? 43 then 32 :: decode_bytes s'
      else c mod 256 :: decode_bytes s'
  end.
(** query_strings.rs:12-64 [decode_query]; [None] is [Err]. *)
Definition decode_query (s : str) : option str := from_utf8 (decode_bytes s).

(** * Encoding *)
(** The hexadecimal digits of [char::escape_unicode]. *)
Fixpoint hex_digits_aux (fuel : nat) (n : N) (acc : str) : str :=
  match fuel with
  | O => acc
  | S f =>
      let acc' := hex_digit (n mod 16) :: acc in
      if n / 16 =? 0 then acc' else hex_digits_aux f (n / 16) acc'
  end.
(** A [char] has at most six hexadecimal digits. *)
Definition hex_digits (c : N) : str := hex_digits_aux 6 c [].
(** query_strings.rs:75-83: the digits in pairs; [it.next().unwrap()] panics on an odd number. *)
Fixpoint percent_pairs (ds : str) : outcome str unit :=
  match ds with
  | [] => Ok []
  | [_] => Panic
  | a :: b :: ds' => bind (percent_pairs ds') (fun r => Ok (37 :: a :: b :: r))
  end.
(** query_strings.rs:67-87 [encode_query]. *)
Definition plain_char (c : N) : bool := (c =? 45) || is_lower c || is_upper c || is_digit c.
Definition encode_char (c : N) : outcome str unit :=
  if c =? 32 then Ok [43]
  else if plain_char c then Ok [c]
  else percent_pairs (hex_digits c).
Fixpoint encode_query (s : str) : outcome str unit :=
  match s with
  | [] => Ok []
  | c :: s' => bind (encode_char c) (fun a => bind (encode_query s') (fun b => Ok (a ++ b)))
  end.

(** * Query strings *)
(** [HashMap<String, Vec<Option<String>>>]: an association list with different keys. *)
Definition qmap := list (str * list (option str)).

(** [map.entry(name).or_insert_with(|| vec![]).push(value)]. *)
Fixpoint q_push (k : str) (v : option str) (m : qmap) : qmap :=
  match m with
  | [] => [(k, [v])]
  | (k', vs) :: m' => if str_eqb k k' then (k', vs ++ [v]) :: m' else (k', vs) :: q_push k v m'
  end.
(** query_strings.rs:94-114 one part of the query string. *)
Definition decode_or_raw (s : str) : str := match decode_query s with Some d => d | None => s end.
Definition parse_pair (kv : str) : option (str * option str) :=
  match kv with
  | [] => None
  | _ => match split_once 61 kv with
         | Some (n, v) => Some (decode_or_raw n, Some (decode_or_raw v))
         | None => Some (decode_or_raw kv, None)
         end
  end.
(** query_strings.rs:92-119 [parse_query_string]. *)
Definition parse_query_string (s : str) : option qmap :=
  match s with
  | [] => None
  | _ => Some (fold_left (fun m kv => match parse_pair kv with Some (n, v) => q_push n v m | None => m end)
                         (split_on 38 s) [])
  end.

(** query_strings.rs:122-135 [build_query_string]: entries with an empty name are
    dropped, the others sorted by name (the names of a map are different). *)
Definition mapM_o {A B E} (f : A -> outcome B E) : list A -> outcome (list B) E :=
  fix go l := match l with
  | [] => Ok []
  | x :: l' => bind (f x) (fun y => bind (go l') (fun ys => Ok (y :: ys)))
  end.
Definition build_pair (k : str) (v : option str) : outcome str unit :=
  match v with
  | None => Ok k
  | Some s => bind (encode_query s) (fun e => Ok (k ++ [61] ++ e))
  end.
Definition sort_entries {A} (m : list (str * A)) : list (str * A) :=
  fold_right (fun kv acc => obj_insert (fst kv) (snd kv) acc) [] m.
Definition build_query_string (m : qmap) : outcome str unit :=
  bind (mapM_o (fun kv => mapM_o (build_pair (fst kv)) (snd kv))
               (sort_entries (filter (fun kv => match fst kv with [] => false | _ => true end) m)))
       (fun parts => Ok (join_with [38] (concat parts))).

(** * JSON forms *)
(** query_strings.rs:150-176 [v3_query_from_json]: a value that is neither a
    string nor null inside an array becomes the text of the whole array. *)
Section Json.
Variable w : world.
Definition v3_query_from_json (j : json) : option qmap :=
  match j with
  | JStr s => parse_query_string s
  | JObj m => Some (map (fun kv => (fst kv, match snd kv with
      | JStr s => [Some s]
      | JArr l => map (fun i => match i with
          | JStr s => Some s
          | JNull => None
          | _ => Some (json_show w (snd kv))
          end) l
      | _ => []
      end)) m)
  | _ => None
  end.
(** query_strings.rs:179-193 [query_to_json] for V3 and V4 pacts. *)
Definition query_to_json (m : qmap) : json :=
  JObj (fold_left (fun acc kv => obj_insert (fst kv)
    (JArr (map (fun q => match q with None => JNull | Some s => JStr s end) (snd kv))) acc) m []).
End Json.
