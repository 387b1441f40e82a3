(** Specification of form bodies described by JSON. *)
From Coq Require Import Ascii String List Arith NArith ZArith Lia Bool.
From Verif Require Import Base PathExp Json Text MatchingRules.
Import ListNotations.
Open Scope N_scope.

(** Texts and numbers can be the value of a field. *)
Inductive shown_as (w : world) : json -> str -> Prop :=
| sa_text : forall s, shown_as w (JStr s) s
| sa_number : forall n, shown_as w (JNum n) (show_num w n).
(** The fields a document stands for, in the order of its entries: the texts and numbers, and those in its arrays. *)
Inductive fields (w : world) : list (str * json) -> list (str * str) -> Prop :=
| fs_end : fields w [] []
| fs_value : forall k v t m l, shown_as w v t -> fields w m l -> fields w ((k, v) :: m) ((k, t) :: l)
| fs_array : forall k vs ts m l, items w vs ts -> fields w m l -> fields w ((k, JArr vs) :: m) (map (pair k) ts ++ l)
| fs_other : forall k v m l, (forall t, ~ shown_as w v t) -> (forall vs, v <> JArr vs) -> fields w m l -> fields w ((k, v) :: m) l
with items (w : world) : list json -> list str -> Prop :=
| is_end : items w [] []
| is_value : forall v t vs ts, shown_as w v t -> items w vs ts -> items w (v :: vs) (t :: ts)
| is_other : forall v vs ts, (forall t, ~ shown_as w v t) -> items w vs ts -> items w (v :: vs) ts.
Inductive form_of (w : world) : json -> list (str * str) -> Prop :=
| fo_object : forall m l, fields w m l -> form_of w (JObj m) l
| fo_other : forall v, (forall m, v <> JObj m) -> form_of w v [].

(** The places of a document that cannot be written into a form. *)
Inductive left_out (w : world) : json -> docpath -> Prop :=
| lo_entry : forall k v m, In (k, v) m -> (forall t, ~ shown_as w v t) -> (forall vs, v <> JArr vs) -> left_out w (JObj m) (join path_root k)
| lo_item : forall k vs m i v, In (k, JArr vs) m -> nth_error vs (N.to_nat i) = Some v -> (forall t, ~ shown_as w v t) ->
    left_out w (JObj m) (push_index (join path_root k) i).
(** A path in whose text the text of the path of such a place occurs. *)
Definition dropped (w : world) (v : json) (p : docpath) : Prop :=
  exists q a b, left_out w v q /\ path_expr p = a ++ path_expr q ++ b.
