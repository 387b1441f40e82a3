(** What it means that a document is changed exactly at the places a path
    expression addresses. *)
From Coq Require Import List NArith Bool.
From Verif Require Import Base PathExp Json.
Import ListNotations.
Open Scope N_scope.

(** [v'] is [v] with every value addressed by the tokens (below the root) replaced by one
    that [R] relates to it; everything else, and in particular every key, every length and every order, is the same. *)
Fixpoint changed (R : json -> json -> Prop) (path : list token) (v v' : json) {struct path} : Prop :=
  match path with
  | [] => R v v'
  | TField name :: rest =>
      match v with
      | JObj m => exists m', v' = JObj m' /\
          Forall2 (fun kv kv' => fst kv' = fst kv /\
                     (if str_eqb (fst kv) name then changed R rest (snd kv) (snd kv') else snd kv' = snd kv)) m m'
      | _ => v' = v
      end
  | TStar :: rest =>
      match v with
      | JObj m => exists m', v' = JObj m' /\
          Forall2 (fun kv kv' => fst kv' = fst kv /\ changed R rest (snd kv) (snd kv')) m m'
      | _ => v' = v
      end
  | TIndex i :: rest =>
      match v with
      | JArr l => exists l', v' = JArr l' /\ length l' = length l /\
          forall n x x', nth_error l n = Some x -> nth_error l' n = Some x' ->
            if N.of_nat n =? i then changed R rest x x' else x' = x
      | _ => v' = v
      end
  | TStarIndex :: rest =>
      match v with
      | JArr l => exists l', v' = JArr l' /\ Forall2 (changed R rest) l l'
      | _ => v' = v
      end
  | TRoot :: _ => v' = v
  end.

(** Keys that mean themselves in a JSON pointer. *)
Definition plain_key (k : str) : Prop := ~ In 47 k /\ ~ In 126 k.

(** Every key on the way to an addressed value is plain, and a last one is not empty. *)
Fixpoint plain_keys (path : list token) (v : json) {struct path} : Prop :=
  match path with
  | [] => True
  | TField name :: rest =>
      match v with
      | JObj m => forall x, In (name, x) m -> plain_key name /\ (rest = [] -> name <> []) /\ plain_keys rest x
      | _ => True
      end
  | TStar :: rest =>
      match v with
      | JObj m => forall k x, In (k, x) m -> plain_key k /\ (rest = [] -> k <> []) /\ plain_keys rest x
      | _ => True
      end
  | TIndex i :: rest =>
      match v with
      | JArr l => forall x, nth_error l (N.to_nat i) = Some x -> plain_keys rest x
      | _ => True
      end
  | TStarIndex :: rest =>
      match v with
      | JArr l => forall x, In x l -> plain_keys rest x
      | _ => True
      end
  | TRoot :: _ => True
  end.

(** The tokens below a root token at the start of a path; paths have it only there. *)
Definition below_root (p : docpath) (path : list token) : Prop :=
  path_tokens p = TRoot :: path /\ ~ In TRoot path.

(** Two paths that part: up to some place they go the same way, there they name different children. *)
Fixpoint apart (p q : list token) : Prop :=
  match p, q with
  | a :: p', b :: q' =>
      match a, b with
      | TField x, TField y => x <> y \/ apart p' q'
      | TIndex i, TIndex j => i <> j \/ apart p' q'
      | TStar, TField _ | TField _, TStar | TStar, TStar => apart p' q'
      | TStarIndex, TIndex _ | TIndex _, TStarIndex | TStarIndex, TStarIndex => apart p' q'
      | TField _, TIndex _ | TField _, TStarIndex | TStar, TIndex _ | TStar, TStarIndex => True
      | TIndex _, TField _ | TIndex _, TStar | TStarIndex, TField _ | TStarIndex, TStar => True
      | _, _ => False
      end
  | _, _ => False
  end.

(** [y] is what some call of the generator put in place of [x]; after an error [x] stays. *)
Definition outcome_of (gen : nat -> json -> option json) (x y : json) : Prop :=
  exists n, gen n x = Some y \/ (gen n x = None /\ y = x).

(** [v'] comes out of [v] when the generators, each with its path, are applied one after the other. *)
Fixpoint changed_by (gs : list (list token * (nat -> json -> option json))) (v v' : json) : Prop :=
  match gs with
  | [] => v' = v
  | (path, gen) :: gs' => exists u, changed (outcome_of gen) path v u /\ changed_by gs' u v'
  end.
