(** Specification vocabulary for path expressions (independent of the printer,
    parser and weight functions of the model; it only uses the step type). *)
From Coq Require Import String List NArith Bool.
From Verif Require Import Base PathExp.
Import ListNotations.
Open Scope N_scope.

(** A field name the expression grammar can carry: not empty, no quote, no backslash. *)
Definition plain_name (f : str) : Prop :=
  f <> [] /\ ~ In 39 f (* ' *) /\ ~ In 92 f (* \ *).

(** A step below the root with a name or index the grammar can carry. *)
Definition plain_step (t : token) : Prop :=
  match t with
  | TRoot => False
  | TField f => plain_name f
  | TIndex i => i < 2 ^ 64
  | TStar | TStarIndex => True
  end.

(** When a step of an expression accepts one step of a concrete location.
    [parse_usize] is the standard library's integer parser. *)
Definition step_accepts (t : token) (f : str) : Prop :=
  match t with
  | TRoot => f = S_ "$"
  | TField n => f = n
  | TIndex i => parse_usize f = Some i
  | TStar => True
  | TStarIndex => f = S_ "[*]" \/ exists i, parse_usize f = Some i
  end.

(** Prefix-wise acceptance of a location by an expression. *)
Inductive accepts : list token -> list str -> Prop :=
| acc_nil : forall path, accepts [] path
| acc_cons : forall t ts f path, step_accepts t f -> accepts ts path -> accepts (t :: ts) (f :: path).

(** Number of steps that are not wildcards. *)
Fixpoint exact_steps (ts : list token) : nat :=
  match ts with
  | [] => O
  | TStar :: ts' | TStarIndex :: ts' => exact_steps ts'
  | _ :: ts' => S (exact_steps ts')
  end.

(** RFC 6901, section 3 and 4: a pointer is empty or a sequence of "/"-prefixed
    reference tokens in which "~0" stands for "~" and "~1" for "/". *)
Fixpoint split_slash (s : str) : list str :=
  match s with
  | [] => [[]]
  | c :: s' =>
      if c =? 47 then [] :: split_slash s'
      else match split_slash s' with
           | w :: ws => (c :: w) :: ws
           | [] => [[c]]
           end
  end.

Fixpoint rfc_unescape (s : str) : option str :=
  match s with
  | [] => Some []
  | c :: s' =>
      if c =? 126 then
        match s' with
        | d :: s'' =>
            if d =? 48 then option_map (cons 126) (rfc_unescape s'')
            else if d =? 49 then option_map (cons 47) (rfc_unescape s'')
            else None
        | [] => None
        end
      else option_map (cons c) (rfc_unescape s')
  end.

Fixpoint map_option {A B} (f : A -> option B) (l : list A) : option (list B) :=
  match l with
  | [] => Some []
  | x :: l' => match f x, map_option f l' with
               | Some y, Some ys => Some (y :: ys)
               | _, _ => None
               end
  end.

Definition rfc6901_tokens (s : str) : option (list str) :=
  match s with
  | [] => Some []
  | c :: s' => if c =? 47 then map_option rfc_unescape (split_slash s') else None
  end.

(** The reference tokens a path without wildcards should denote. *)
Fixpoint step_names (ts : list token) : list str :=
  match ts with
  | [] => []
  | TField n :: ts' => n :: step_names ts'
  | TIndex i :: ts' => show_N i :: step_names ts'
  | _ :: ts' => step_names ts'
  end.

(** The public operations on a path. *)
Inductive path_op :=
| OpPush (t : token) | OpPushField (f : str) | OpPushIndex (i : N) | OpPushStar | OpPushStarIndex
| OpPushPath (q : list token)
| OpJoin (s : str) | OpJoinIndex (i : N) | OpJoinField (f : str)
| OpParent | OpDrop (n : nat).

(** Running an operation of the model; [parent] of a root path leaves it alone. *)
Definition run_op (p : docpath) (o : path_op) : docpath :=
  match o with
  | OpPush t => push p t
  | OpPushField f => push_field p f
  | OpPushIndex i => push_index p i
  | OpPushStar => push_star p
  | OpPushStarIndex => push_star_index p
  | OpPushPath q => push_path p (from_tokens q)
  | OpJoin s => join p s
  | OpJoinIndex i => join_index p i
  | OpJoinField f => join_field p f
  | OpParent => match parent p with Some q => q | None => p end
  | OpDrop n => path_drop p n
  end.

(** What each operation should do to the steps. *)
Definition is_not_root (t : token) : bool := match t with TRoot => false | _ => true end.
Definition part_token (s : str) : token :=
  if str_eqb s (S_ "*") then TStar
  else if str_eqb s (S_ "[*]") then TStarIndex
  else match parse_usize s with Some i => TIndex i | None => TField s end.
Definition op_steps (ts : list token) (o : path_op) : list token :=
  match o with
  | OpPush t => ts ++ [t]
  | OpPushField f => ts ++ [TField f]
  | OpPushIndex i => ts ++ [TIndex i]
  | OpPushStar => ts ++ [TStar]
  | OpPushStarIndex => ts ++ [TStarIndex]
  | OpPushPath q => ts ++ filter is_not_root q
  | OpJoin s => ts ++ [part_token s]
  | OpJoinIndex i =>
      match last ts TRoot with
      | TStar | TStarIndex => removelast ts ++ [TIndex i]
      | _ => ts ++ [TIndex i]
      end
  | OpJoinField f =>
      match last ts TRoot with
      | TStar => removelast ts ++ [TField f]
      | _ => ts ++ [TField f]
      end
  | OpParent => match ts with
                | [] | [_] => ts
                | _ => removelast ts
                end
  | OpDrop n => match firstn (length ts - n) ts with
                | [] => [TRoot]
                | l => l
                end
  end.
