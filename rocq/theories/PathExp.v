(** Model of document path expressions: rust/pact_models/src/path_exp.rs *)
From Coq Require Import String List NArith Lia Bool.
From Verif Require Import Base.
Import ListNotations.
Open Scope N_scope.

(** path_exp.rs:24-39 [enum PathToken]. An [Index] holds a usize. *)
Inductive token :=
| TRoot
| TField (name : str)
| TIndex (i : N)
| TStar
| TStarIndex.

(** Derived [PartialEq] for [PathToken] (path_exp.rs:25). *)
Definition token_eqb (a b : token) : bool :=
  match a, b with
  | TRoot, TRoot => true
  | TField x, TField y => str_eqb x y
  | TIndex i, TIndex j => i =? j
  | TStar, TStar => true
  | TStarIndex, TStarIndex => true
  | _, _ => false
  end.

(** path_exp.rs:51-61 [impl Display for PathToken]. *)
Definition token_display (t : token) : str :=
  match t with
  | TRoot => S_ "$"
  | TField n => n
  | TIndex n => show_N n
  | TStar => S_ "*"
  | TStarIndex => S_ "[*]"
  end.

(** path_exp.rs:63-82 [matches_token]. *)
Definition matches_token (fragment : str) (t : token) : N :=
  match t with
  | TRoot => if str_eqb fragment (S_ "$") then 2 else 0
  | TField name => if str_eqb fragment name then 2 else 0
  | TIndex index => match parse_usize fragment with
                    | Some i => if index =? i then 2 else 0
                    | None => 0
                    end
  | TStarIndex => if str_eqb fragment (S_ "[*]") then 1
                  else match parse_usize fragment with
                       | Some _ => 1
                       | None => 0
                       end
  | TStar => 1
  end.

(** path_exp.rs:84-90 [struct DocPath]. *)
Record docpath := mkPath { path_tokens : list token; path_expr : str }.

(** path_exp.rs:17-18 the regex [IDENT] [^[_A-Za-z][_A-Za-z0-9]*$]. *)
Definition ident_start (c : N) : bool := (c =? 95) || ascii_alpha c.
Definition ident_rest (c : N) : bool := ident_start c || is_digit c.
Definition ident_match (s : str) : bool :=
  match s with
  | [] => false
  | c :: s' => ident_start c && forallb ident_rest s'
  end.

(** path_exp.rs:19-22, 452-462: the regex [ESCAPE] matches backslash (92) or quote (39);
    [replace_all] puts a backslash in front of each. *)
Fixpoint escape_key (s : str) : str :=
  match s with
  | [] => []
  | c :: s' => if (c =? 92) || (c =? 39) then 92 :: c :: escape_key s' else c :: escape_key s'
  end.

(** path_exp.rs:449-462 [write_obj_key_for_path] (the text appended to [out]). *)
Definition obj_key_for_path (key : str) : str :=
  if ident_match key then 46 :: key
  else S_ "['" ++ escape_key key ++ S_ "']".

(** path_exp.rs:359-384 one step of [build_expr]; the same text is appended by
    [push] (path_exp.rs:311-325). *)
Definition token_expr (t : token) : str :=
  match t with
  | TRoot => S_ "$"
  | TField v => obj_key_for_path v
  | TIndex i => S_ "[" ++ show_N i ++ S_ "]"
  | TStar => S_ ".*"
  | TStarIndex => S_ "[*]"
  end.

(** path_exp.rs:359-384 [DocPath::build_expr]. *)
Fixpoint build_expr (ts : list token) : str :=
  match ts with
  | [] => []
  | t :: ts' => token_expr t ++ build_expr ts'
  end.

(** path_exp.rs:117-122 [empty]; 125-130 [root]; 133-141 [from_tokens]. *)
Definition path_empty : docpath := mkPath [] [].
Definition path_root : docpath := mkPath [TRoot] (S_ "$").
Definition from_tokens (ts : list token) : docpath := mkPath ts (build_expr ts).

(** path_exp.rs:160-167 [first_field]; 170-177 [last_field]. *)
Fixpoint first_field_of (ts : list token) : option str :=
  match ts with
  | [] => None
  | TField f :: _ => Some f
  | _ :: ts' => first_field_of ts'
  end.
Definition first_field (p : docpath) : option str := first_field_of (path_tokens p).
Definition last_field (p : docpath) : option str := first_field_of (rev (path_tokens p)).

(** path_exp.rs:180-182 [is_root]. *)
Definition is_root (p : docpath) : bool :=
  match path_tokens p with [TRoot] => true | _ => false end.

(** path_exp.rs:154-156 [last]; 185-187 [is_wildcard]. *)
Definition path_last (p : docpath) : option token :=
  match rev (path_tokens p) with [] => None | t :: _ => Some t end.
Definition is_wildcard (p : docpath) : bool :=
  match path_last p with Some TStar => true | _ => false end.

(** path_exp.rs:198-201: the fold [acc * matches_token(fragment, token)] over
    the zipped lists in [usize] (wrapping, as in a release build). *)
Fixpoint weight_fold (ts : list token) (path : list str) (acc : N) : N :=
  match ts, path with
  | t :: ts', f :: path' => weight_fold ts' path' ((acc * matches_token f t) mod two64)
  | _, _ => acc
  end.

(** path_exp.rs:190-209 [path_weight]. *)
Definition path_weight (p : docpath) (path : list str) : N * N :=
  let len := N.of_nat (length (path_tokens p)) in
  if len <=? N.of_nat (length path)
  then (weight_fold (path_tokens p) path 1, len)
  else (0, len).

(** path_exp.rs:212-214 [matches_path]; 218-220 [matches_path_exactly]. *)
Definition matches_path (p : docpath) (path : list str) : bool :=
  0 <? fst (path_weight p path).
Definition matches_path_exactly (p : docpath) (path : list str) : bool :=
  (N.of_nat (length (path_tokens p)) =? N.of_nat (length path)) && matches_path p path.

(** path_exp.rs:282-325 [push_field], [push_index], [push_star],
    [push_star_index] and [push]: each appends the step and its text. *)
Definition push (p : docpath) (t : token) : docpath :=
  mkPath (path_tokens p ++ [t]) (path_expr p ++ token_expr t).
Definition push_field (p : docpath) (f : str) : docpath := push p (TField f).
Definition push_index (p : docpath) (i : N) : docpath := push p (TIndex i).
Definition push_star (p : docpath) : docpath := push p TStar.
Definition push_star_index (p : docpath) : docpath := push p TStarIndex.

(** path_exp.rs:329-336 [push_path]. *)
Definition push_path (p q : docpath) : docpath :=
  fold_left (fun acc t => match t with TRoot => acc | _ => push acc t end) (path_tokens q) p.

(** path_exp.rs:223-236 [join]. *)
Definition join (p : docpath) (part : str) : docpath :=
  if str_eqb part (S_ "*") then push_star p
  else if str_eqb part (S_ "[*]") then push_star_index p
  else match parse_usize part with
       | Some i => push_index p i
       | None => push_field p part
       end.

(** Replacing the last step and rebuilding the text, used by [join_index] and
    [join_field] (path_exp.rs:247-252, 267-272). *)
Definition replace_last (p : docpath) (t : token) : docpath :=
  from_tokens (removelast (path_tokens p) ++ [t]).

(** path_exp.rs:240-257 [join_index]. *)
Definition join_index (p : docpath) (i : N) : docpath :=
  match path_last p with
  | Some TStar | Some TStarIndex => replace_last p (TIndex i)
  | _ => push_index p i
  end.

(** path_exp.rs:261-279 [join_field]. *)
Definition join_field (p : docpath) (name : str) : docpath :=
  match path_last p with
  | Some TStar => replace_last p (TField name)
  | _ => push_field p name
  end.

(** path_exp.rs:339-341 [to_vec]. *)
Definition to_vec (p : docpath) : list str := map token_display (path_tokens p).

(** path_exp.rs:344-357 [parent]. *)
Definition parent (p : docpath) : option docpath :=
  if Nat.leb (length (path_tokens p)) 1 then None
  else Some (from_tokens (removelast (path_tokens p))).

(** path_exp.rs:387-395 [to_lower_case]; [lower] is [str::to_lowercase]. *)
Definition to_lower_case (lower : str -> str) (p : docpath) : docpath :=
  mkPath (map (fun t => match t with TField f => TField (lower f) | _ => t end) (path_tokens p))
         (lower (path_expr p)).

(** [str::replace(char, &str)] for a one character pattern. *)
Fixpoint replace_char (c : N) (by_ : str) (s : str) : str :=
  match s with
  | [] => []
  | x :: s' => if x =? c then by_ ++ replace_char c by_ s' else x :: replace_char c by_ s'
  end.

(** path_exp.rs:398-423 [as_json_pointer] ([None] is the error for wildcards). *)
Fixpoint pointer_of (ts : list token) : option str :=
  match ts with
  | [] => Some []
  | TRoot :: ts' => pointer_of ts'
  | TField v :: ts' =>
      match pointer_of ts' with
      | Some rest => Some (47 :: replace_char 47 (S_ "~1") (replace_char 126 (S_ "~0") v) ++ rest)
      | None => None
      end
  | TIndex i :: ts' =>
      match pointer_of ts' with
      | Some rest => Some (47 :: show_N i ++ rest)
      | None => None
      end
  | TStar :: _ => None
  | TStarIndex :: _ => None
  end.
Definition as_json_pointer (p : docpath) : option str := pointer_of (path_tokens p).

(** path_exp.rs:431-447 [drop]: itertools [dropping_back(n)] on the tokens. *)
Definition path_drop (p : docpath) (n : nat) : docpath :=
  let v := firstn (length (path_tokens p) - n) (path_tokens p) in
  match v with
  | [] => path_root
  | _ => from_tokens v
  end.

(** path_exp.rs:514-518 [PartialEq for DocPath]: string forms are compared. *)
Definition path_eqb (p q : docpath) : bool := str_eqb (path_expr p) (path_expr q).

(** The error messages of the parser, one constructor per message
    (path_exp.rs:552-735); the offending character and index are dropped. *)
Inductive path_error :=
| BadIdentChar | ExpectedIdent | ExpectedAfterDot | EmptyString_ | UnterminatedString
| BadIndexChar | EmptyBrackets | UnterminatedBrackets | ExpectedQuoteOrDigit
| ExpectedDotOrBracket | NoRootMarker
| OutOfFuel (* not a Rust error: the model's loop bound; proved unreachable *).

Section Parser.
(** [char::is_alphabetic] / [char::is_numeric] outside ASCII are arbitrary. *)
Variable uni_alpha uni_numeric : N -> bool.

Definition is_alphabetic (c : N) : bool := if c <? 128 then ascii_alpha c else uni_alpha c.
Definition is_numeric (c : N) : bool := if c <? 128 then is_digit c else uni_numeric c.

(** path_exp.rs:548-550 [is_identifier_char]. *)
Definition is_identifier_char (c : N) : bool :=
  is_alphabetic c || is_numeric c || (c =? 95) || (c =? 45) || (c =? 58) || (c =? 35) || (c =? 64).

(** path_exp.rs:557-569 the loop of [identifier]: the characters consumed and
    what is left of the iterator. *)
Fixpoint ident_loop (cs : str) : outcome (str * str) path_error :=
  match cs with
  | [] => Ok ([], [])
  | c :: cs' =>
      if is_identifier_char c then
        bind (ident_loop cs') (fun r => Ok (c :: fst r, snd r))
      else if (c =? 46) || (c =? 39) || (c =? 91) then Ok ([], cs)
      else Err BadIdentChar
  end.

(** path_exp.rs:552-572 [identifier]. *)
Definition identifier (ch : N) (cs : str) : outcome (token * str) path_error :=
  bind (ident_loop cs) (fun r => Ok (TField (ch :: fst r), snd r)).

(** path_exp.rs:575-594 [path_identifier]. *)
Definition path_identifier (cs : str) : outcome (token * str) path_error :=
  match cs with
  | [] => Err ExpectedAfterDot
  | c :: cs' =>
      if c =? 42 then Ok (TStar, cs')
      else if is_identifier_char c then identifier c cs'
      else Err ExpectedIdent
  end.

(** path_exp.rs:601-611 the loop of [string_path]: collected text, last
    character looked at, rest. *)
Fixpoint string_loop (ch : N) (cs : str) (id : str) : str * N * str :=
  match cs with
  | [] => (id, ch, [])
  | c :: cs' => if ch =? 39 then (id, ch, cs) else string_loop c cs' (id ++ [ch])
  end.

(** path_exp.rs:596-624 [string_path]. *)
Definition string_path (cs : str) : outcome (token * str) path_error :=
  match cs with
  | [] => Err UnterminatedString
  | c :: cs' =>
      match string_loop c cs' [] with
      | (id, ch, rest) =>
          if ch =? 39 then
            match id with
            | [] => Err EmptyString_
            | _ => Ok (TField id, rest)
            end
          else Err UnterminatedString
      end
  end.

(** path_exp.rs:631-642 the loop of [index_path]. *)
Fixpoint index_loop (cs : str) : str * str :=
  match cs with
  | [] => ([], [])
  | c :: cs' => if is_numeric c then let r := index_loop cs' in (c :: fst r, snd r)
                else ([], cs)
  end.

(** path_exp.rs:626-653 [index_path]; [id.parse().unwrap()] panics when the
    text is not a [usize]. *)
Definition index_path (c0 : N) (cs : str) : outcome (token * str) path_error :=
  let r := index_loop cs in
  let finish :=
    match parse_usize (c0 :: fst r) with
    | Some i => Ok (TIndex i, snd r)
    | None => Panic
    end in
  match snd r with
  | c :: _ => if c =? 93 then finish else Err BadIndexChar
  | [] => finish
  end.

(** path_exp.rs:655-692 [bracket_path]. *)
Definition bracket_inner (c : N) (cs' : str) : outcome (token * str) path_error :=
  if c =? 39 then string_path cs'
  else if is_numeric c then index_path c cs'
  else if c =? 42 then Ok (TStarIndex, cs')
  else if c =? 93 then Err EmptyBrackets
  else Err BadIndexChar.

Definition bracket_path (cs : str) : outcome (token * str) path_error :=
  match cs with
  | [] => Err ExpectedQuoteOrDigit
  | c :: cs' =>
      bind (bracket_inner c cs') (fun r =>
        match snd r with
        | d :: rest => if d =? 93 then Ok (fst r, rest) else Err UnterminatedBrackets
        | [] => Err UnterminatedBrackets
        end)
  end.

(** path_exp.rs:694-709 [path_exp]; [fuel] bounds the while loop. *)
Fixpoint path_exp (fuel : nat) (cs : str) : outcome (list token) path_error :=
  match cs with
  | [] => Ok []
  | c :: cs' =>
      match fuel with
      | O => Err OutOfFuel
      | S f =>
          if c =? 46 then
            bind (path_identifier cs') (fun r =>
              bind (path_exp f (snd r)) (fun ts => Ok (fst r :: ts)))
          else if c =? 91 then
            bind (bracket_path cs') (fun r =>
              bind (path_exp f (snd r)) (fun ts => Ok (fst r :: ts)))
          else Err ExpectedDotOrBracket
      end
  end.

(** path_exp.rs:711-736 [parse_path_exp]. *)
Definition parse_path_exp (s : str) : outcome (list token) path_error :=
  match s with
  | [] => Ok []
  | c :: cs =>
      if c =? 36 then
        bind (path_exp (length cs) cs) (fun ts => Ok (TRoot :: ts))
      else if is_alphabetic c || is_numeric c then
        bind (identifier c cs) (fun r =>
          bind (path_exp (length (snd r)) (snd r)) (fun ts => Ok (TRoot :: fst r :: ts)))
      else Err NoRootMarker
  end.

(** path_exp.rs:94-102 [DocPath::new]. *)
Definition path_new (s : str) : outcome docpath path_error :=
  bind (parse_path_exp s) (fun ts => Ok (mkPath ts s)).

End Parser.
