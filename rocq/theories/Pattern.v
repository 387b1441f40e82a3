(** Model of the patterns of the consumer DSL: rust/pact_consumer/src/patterns/json_pattern.rs,
    special_rules.rs, string_pattern.rs, date_time.rs, and rust/pact_consumer/src/util.rs.

    A pattern is built by the [json_pattern!], [like!], [each_like!], [term!], [datetime!] and
    [object_matching!] macros and gives an example document and matching rules. A [Pattern] trait
    object is one of the implementations in those files; a [HashMap] of patterns is the list of
    its entries in iteration order. Not modelled: the macros' token parsing, the check of a
    regular expression when a term is built, [to_example_bytes] of JSON patterns. *)
From Coq Require Import Ascii String List Arith NArith ZArith Lia Bool.
From Verif Require Import Base PathExp Json MatchingRules.
Import ListNotations.
Open Scope N_scope.

(** json_pattern.rs:30-41 [enum JsonPattern]; special_rules.rs:28-31 [Like], 104-108 [EachLike],
    281-290 [Term], 396-400 [ObjectMatching]; date_time.rs:12-22 [DateTime]. *)
Inductive pattern :=
| PJson (j : json)
| PArray (l : list pattern)
| PObject (fs : list (str * pattern))
| PLike (p : pattern)
| PEachLike (p : pattern) (min : N)
| PTerm (regex example : str)
| PDateTime (format example : str)
| PObjectMatching (p : pattern) (rules : list rule).

(** string_pattern.rs:11-18 [enum StringPattern] and the patterns of strings. *)
Inductive string_pattern :=
| SLiteral (s : str)
| SLike (p : string_pattern)
| STerm (regex example : str)
| SDateTime (format example : str).

(** json_pattern.rs:61-73, special_rules.rs:43-45, 133-136, 312-314, 414-416, date_time.rs:43-45
    [to_example]. *)
Fixpoint to_example (p : pattern) : json :=
  match p with
  | PJson j => j
  | PArray l => JArr (map to_example l)
  | PObject fs => JObj (obj_of_list (map (fun kv => (fst kv, to_example (snd kv))) fs))
  | PLike q => to_example q
  | PEachLike q min => JArr (repeat (to_example q) (N.to_nat min))
  | PTerm _ ex => JStr ex
  | PDateTime _ ex => JStr ex
  | PObjectMatching q _ => to_example q
  end.

(** special_rules.rs:431-434: the steps of a nested path, but the first two, pushed one by one. *)
Definition push_all (p : docpath) (ts : list token) : docpath := fold_left push ts p.
(** special_rules.rs:430-439: the rules of one nested path; their logic is kept. *)
Definition move_rules (child_path : docpath) (c : category) (e : docpath * rulelist) : category :=
  fold_left (fun c r => cat_add_rule c (push_all child_path (skipn 2 (path_tokens (fst e)))) r (rl_logic (snd e)))
            (rl_rules (snd e)) c.

(** json_pattern.rs:81-102, special_rules.rs:51-54, 145-166, 320-323, 422-441, date_time.rs:51-53
    [extract_matching_rules]. *)
Fixpoint extract (p : pattern) (path : docpath) (c : category) {struct p} : category :=
  match p with
  | PJson _ => c
  | PArray l =>
      (fix go (i : N) (l : list pattern) (c : category) : category :=
         match l with
         | [] => c
         | x :: l' => go (i + 1) l' (extract x (push_index path i) c)
         end) 0 l c
  | PObject fs =>
      (fix go (fs : list (str * pattern)) (c : category) : category :=
         match fs with
         | [] => c
         | kv :: fs' => go fs' (extract (snd kv) (push_field path (fst kv)) c)
         end) fs c
  | PLike q => extract q path (cat_add_rule c path RType And)
  | PEachLike q min =>
      extract q (push_star_index path)
        (cat_add_rule (cat_add_rule c path (RMinType min) And)
                      (push_star (push_star_index path)) RType And)
  | PTerm regex _ => cat_add_rule c path (RRegex regex) And
  | PDateTime format _ => cat_add_rule c path (RTimestamp format) And
  | PObjectMatching q rules =>
      fold_left (move_rules (join path (S_ "*"))) (cat_rules (extract q path_root (cat_empty CBody)))
                (fold_left (fun c r => cat_add_rule c path r And) rules c)
  end.
(** The matching rules of a body pattern: http_part_builder.rs:177-186 [json_body], when no rule
    was added before. *)
Definition body_rules_of (p : pattern) : category := extract p path_root (cat_empty CBody).

(** string_pattern.rs:32-37, special_rules.rs:43-45, 312-314, date_time.rs:43-45 [to_example]. *)
Fixpoint s_example (p : string_pattern) : str :=
  match p with
  | SLiteral s => s
  | SLike q => s_example q
  | STerm _ ex => ex
  | SDateTime _ ex => ex
  end.
(** string_pattern.rs:43-50, special_rules.rs:51-54, 320-323, date_time.rs:51-53
    [extract_matching_rules]. *)
Fixpoint s_extract (p : string_pattern) (path : docpath) (c : category) : category :=
  match p with
  | SLiteral _ => c
  | SLike q => s_extract q path (cat_add_rule c path RType And)
  | STerm regex _ => cat_add_rule c path (RRegex regex) And
  | SDateTime format _ => cat_add_rule c path (RTimestamp format) And
  end.

(** special_rules.rs:637-650, 769-782: the rules of all the paths of a category. *)
Definition all_rules (c : category) : list (rule + str) :=
  map inl (flat_map (fun e => rl_rules (snd e)) (cat_rules c)).
(** special_rules.rs:637-650 [EachKey] into a rule. *)
Definition each_key (p : string_pattern) : rule :=
  REachKey (mkDef (s_example p) VString (all_rules (s_extract p path_root (cat_empty CBody))) []).
(** special_rules.rs:769-782 [EachValue] into a rule. *)
Definition each_value (w : world) (p : pattern) : rule :=
  REachValue (mkDef (json_show w (to_example p)) VString (all_rules (extract p path_root (cat_empty CBody))) []).

(** util.rs:8-42, 66-73 [strip_null_fields]. *)
Definition is_null (j : json) : bool := match j with JNull => true | _ => false end.
Fixpoint strip_null_fields (j : json) : json :=
  match j with
  | JArr l => JArr (map strip_null_fields l)
  | JObj m => JObj (filter (fun kv => negb (is_null (snd kv))) m)
  | _ => j
  end.
