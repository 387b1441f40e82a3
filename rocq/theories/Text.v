(** String operations of the Rust standard library used by the HTTP parts of
    the code: trimming, splitting, joining and UTF-8. *)
From Coq Require Import Ascii String List Arith NArith ZArith Lia Bool.
From Verif Require Import Base Json.
Import ListNotations.
Open Scope N_scope.

(** [char::is_whitespace]; outside ASCII it is an argument ([uni_space]). *)
Definition is_space (w : world) (c : N) : bool :=
  if c <? 128 then ((9 <=? c) && (c <=? 13)) || (c =? 32) else uni_space w c.

(** [str::trim]. *)
Fixpoint drop_while {A} (f : A -> bool) (l : list A) : list A :=
  match l with
  | [] => []
  | x :: l' => if f x then drop_while f l' else l
  end.
Definition trim (w : world) (s : str) : str :=
  rev (drop_while (is_space w) (rev (drop_while (is_space w) s))).

(** [str::split(char)]: the parts between the separators, at least one. *)
Fixpoint split_on (c : N) (s : str) : list str :=
  match s with
  | [] => [[]]
  | x :: s' =>
      if x =? c then [] :: split_on c s'
      else match split_on c s' with
           | p :: ps => (x :: p) :: ps
           | [] => [[x]]
           end
  end.

(** [str::split_once(char)] / [splitn(2, char)]: text before and after the first separator. *)
Fixpoint split_once (c : N) (s : str) : option (str * str) :=
  match s with
  | [] => None
  | x :: s' =>
      if x =? c then Some ([], s')
      else match split_once c s' with
           | Some (a, b) => Some (x :: a, b)
           | None => None
           end
  end.

(** [slice::join(&str)]. *)
Fixpoint join_with (sep : str) (l : list str) : str :=
  match l with
  | [] => []
  | [x] => x
  | x :: l' => x ++ sep ++ join_with sep l'
  end.

(** [str::to_ascii_lowercase]. *)
Definition ascii_lower (s : str) : str := map ascii_low s.

(** * UTF-8 *)
(** A Unicode scalar value ([char]). *)
Definition scalar (c : N) : bool := (c <? 55296) || ((57343 <? c) && (c <? 1114112)).

(** [char::encode_utf8]. *)
Definition utf8_char (c : N) : list N :=
  if c <? 128 then [c]
  else if c <? 2048 then [192 + c / 64; 128 + c mod 64]
  else if c <? 65536 then [224 + c / 4096; 128 + (c / 64) mod 64; 128 + c mod 64]
  else [240 + c / 262144; 128 + (c / 4096) mod 64; 128 + (c / 64) mod 64; 128 + c mod 64].
(** [str::as_bytes]. *)
Definition utf8 (s : str) : list N := flat_map utf8_char s.

Definition cont (b : N) : bool := (128 <=? b) && (b <? 192).
(** One character from the front of a byte sequence: the well formed sequences
    of the Unicode standard (no overlong forms, no surrogates, at most U+10FFFF). *)
Definition utf8_take (bs : list N) : option (N * list N) :=
  match bs with
  | [] => None
  | b :: r =>
      if b <? 128 then Some (b, r)
      else if (194 <=? b) && (b <? 224) then
        match r with
        | b1 :: r' => if cont b1 then Some ((b - 192) * 64 + (b1 - 128), r') else None
        | [] => None
        end
      else if (224 <=? b) && (b <? 240) then
        match r with
        | b1 :: b2 :: r' =>
            let c := (b - 224) * 4096 + (b1 - 128) * 64 + (b2 - 128) in
            if cont b1 && cont b2 && (2048 <=? c) && scalar c then Some (c, r') else None
        | _ => None
        end
      else if (240 <=? b) && (b <? 245) then
        match r with
        | b1 :: b2 :: b3 :: r' =>
            let c := (b - 240) * 262144 + (b1 - 128) * 4096 + (b2 - 128) * 64 + (b3 - 128) in
            if cont b1 && cont b2 && cont b3 && (65536 <=? c) && (c <? 1114112) then Some (c, r') else None
        | _ => None
        end
      else None
  end.
(** [str::from_utf8]: [None] is the error. [fuel] bounds the number of characters
    by the number of bytes. *)
Fixpoint from_utf8_fuel (fuel : nat) (bs : list N) : option str :=
  match bs with
  | [] => Some []
  | _ => match fuel with
         | O => None
         | S f => match utf8_take bs with
                  | Some (c, r) => match from_utf8_fuel f r with Some s => Some (c :: s) | None => None end
                  | None => None
                  end
         end
  end.
Definition from_utf8 (bs : list N) : option str := from_utf8_fuel (length bs) bs.
