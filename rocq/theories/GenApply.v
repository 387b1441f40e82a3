(** Model of applying generators to a JSON body: resolving a path expression to
    JSON pointers (rust/pact_models/src/json_utils.rs:235-321) and
    [JsonHandler] (rust/pact_models/src/generators/mod.rs:1225-1275).

    What a generator produces is an argument: [gen n v] is the outcome of the
    n-th call for one key, given the value [v] ([None]: an error), so any random
    outcome is covered. A generator that panics is outside this file
    (see GenValues.v). *)
From Coq Require Import String List NArith Bool.
From Verif Require Import Base PathExp Json Text Generators.
Import ListNotations.
Open Scope N_scope.

(** The indextree arena: a node is its children with their labels. *)
Inductive ptree := PNode (children : list (str * ptree)).

(** json_utils.rs:254-321 [query_object_graph]: the tree that is appended below the cursor.
    An index beyond the end of the array is passed over with the cursor and the value
    where they were. *)
Fixpoint query_graph (path : list token) (body : json) {struct path} : ptree :=
  match path with
  | [] => PNode []
  | t :: rest =>
      match t with
      | TField name =>
          match body with
          | JObj m => match obj_get name m with
                      | Some v => PNode [(name, query_graph rest v)]
                      | None => PNode []
                      end
          | _ => PNode []
          end
      | TIndex i =>
          match body with
          | JArr l => match nth_error l (N.to_nat i) with
                      | Some v => PNode [(show_N i, query_graph rest v)]
                      | None => query_graph rest body
                      end
          | _ => PNode []
          end
      | TStar =>
          match body with
          | JObj m => PNode (map (fun kv => (fst kv, query_graph rest (snd kv))) m)
          | _ => PNode []
          end
      | TStarIndex =>
          match body with
          | JArr l => PNode (map (fun iv => (show_N (N.of_nat (fst iv)), query_graph rest (snd iv)))
                                 (combine (seq 0 (length l)) l))
          | _ => PNode []
          end
      | TRoot => query_graph rest body
      end
  end.

(** 240-249: the labels from the root to every leaf with a label, in document order. *)
Fixpoint leaf_paths (path : list str) (label : str) (t : ptree) {struct t} : list (list str) :=
  match t with
  | PNode children =>
      (match label, children with
       | _ :: _, [] => [path]
       | _, _ => []
       end) ++
      (fix go (cs : list (str * ptree)) : list (list str) :=
         match cs with
         | [] => []
         | kt :: cs' => leaf_paths (path ++ [fst kt]) (fst kt) (snd kt) ++ go cs'
         end) children
  end.

(** 235-252 [resolve_path]. *)
Definition resolve_path (value : json) (p : docpath) : list str :=
  map (join_with [47])
    (filter (fun path => Nat.eqb (length path) (length (path_tokens p)))
       (leaf_paths [[]] [] (query_graph (path_tokens p) value))).

(** [str::replace(two characters, one character)]. *)
Fixpoint replace2 (a b by_ : N) (s : str) : str :=
  match s with
  | x :: ((y :: s') as s1) => if (x =? a) && (y =? b) then by_ :: replace2 a b by_ s' else x :: replace2 a b by_ s1
  | _ => s
  end.

(** serde_json [parse_index]. An index that does not fit a [usize] does not parse in the code;
    here it parses and finds no element: no array is that long. *)
Definition pointer_index (s : str) : option N :=
  match s with
  | [] => None
  | c :: rest =>
      if (c =? 48) && negb (match rest with [] => true | _ => false end) then None
      else if all_digits s then Some (dec_value s 0) else None
  end.

(** serde_json [Value::pointer_mut]: the tokens of a pointer. *)
Definition pointer_tokens (pointer : str) : option (list str) :=
  match pointer with
  | [] => Some []
  | c :: _ =>
      if c =? 47 then Some (map (fun x => replace2 126 48 126 (replace2 126 49 47 x)) (tl (split_on 47 pointer)))
      else None
  end.

(** [BTreeMap::get_mut] and [slice::get_mut], followed by an assignment. *)
Fixpoint obj_update (k : str) (f : json -> json) (m : list (str * json)) : list (str * json) :=
  match m with
  | [] => []
  | (k', v) :: m' => if str_eqb k k' then (k', f v) :: m' else (k', v) :: obj_update k f m'
  end.
Fixpoint list_update (i : nat) (f : json -> json) (l : list json) : list json :=
  match l, i with
  | [], _ => []
  | x :: l', O => f x :: l'
  | x :: l', S i' => x :: list_update i' f l'
  end.

(** Replacing what a pointer points at (nothing when it points nowhere). *)
Fixpoint update_at (tokens : list str) (f : json -> json) (v : json) {struct tokens} : json :=
  match tokens with
  | [] => f v
  | t :: rest =>
      match v with
      | JObj m => JObj (obj_update t (update_at rest f) m)
      | JArr l => match pointer_index t with
                  | Some i => JArr (list_update (N.to_nat i) (update_at rest f) l)
                  | None => v
                  end
      | _ => v
      end
  end.

(** The value generated in place of another one; on an error it stays. *)
Definition generated (gen : json -> option json) (v : json) : json :=
  match gen v with Some v' => v' | None => v end.

(** generators/mod.rs:1252-1265: the loop over the pointers. *)
Fixpoint apply_pointers (gen : nat -> json -> option json) (n : nat) (pointers : list str) (v : json) : json :=
  match pointers with
  | [] => v
  | p :: ps =>
      apply_pointers gen (S n) ps
        (match pointer_tokens p with
         | Some tokens => update_at tokens (generated (gen n)) v
         | None => v
         end)
  end.

(** generators/mod.rs:1244-1275 [apply_key]. *)
Definition apply_key (gen : nat -> json -> option json) (key : docpath) (v : json) : json :=
  match resolve_path v key with
  | [] => if Nat.eqb (length (path_tokens key)) 1 then generated (gen O) v else v
  | pointers => apply_pointers gen O pointers v
  end.

(** generators/mod.rs:382-391 [GeneratorTestMode], 234-240 [corresponds_to_mode]. *)
Inductive test_mode := Consumer | Provider.
Definition corresponds_to_mode (x : generator) (mode : test_mode) : bool :=
  match x, mode with
  | GProviderState _ _, Consumer => false
  | GMockServerURL _ _, Provider => false
  | _, _ => true
  end.

(** generators/mod.rs:1228-1242 [process_body], up to printing the document:
    the generators in the iteration order of the map, each with its outcomes. *)
Definition process_json (mode : test_mode) (gs : list (docpath * generator * (nat -> json -> option json))) (v : json) : json :=
  fold_left (fun v g => if corresponds_to_mode (snd (fst g)) mode then apply_key (snd g) (fst (fst g)) v else v) gs v.
