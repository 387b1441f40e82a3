(** Specification of merging pacts, in terms of descriptions, provider states and lists only. *)
From Coq Require Import List.
From Verif Require Import Base Json Http Query Merge.
Import ListNotations.

(** [out] is an interleaving of [l] and [r], both in their order, in which some pairs that
    are [same] are represented by the one element [pick] chooses and everything else by itself. *)
Inductive interleaved {A B C} (inl_ : A -> C) (inr_ : B -> C) (same : A -> B -> Prop) (pick : A -> B -> C)
  : list A -> list B -> list C -> Prop :=
  | il_nil : interleaved inl_ inr_ same pick [] [] []
  | il_left : forall a l r out, interleaved inl_ inr_ same pick l r out ->
      interleaved inl_ inr_ same pick (a :: l) r (inl_ a :: out)
  | il_right : forall b l r out, interleaved inl_ inr_ same pick l r out ->
      interleaved inl_ inr_ same pick l (b :: r) (inr_ b :: out)
  | il_both : forall a b l r out, same a b -> interleaved inl_ inr_ same pick l r out ->
      interleaved inl_ inr_ same pick (a :: l) (b :: r) (pick a b :: out).

(** Which interactions are taken to be the same one. In V3 pacts: the same description and,
    if the interaction of this pact has provider states, the same names of provider states. *)
Definition same_v3 (desc : str) (states : list pstate) (b : interaction) : Prop :=
  desc = i_desc b /\ (states = [] \/ map st_name states = map st_name (i_states b)).
(** In V4 pacts: the same key if both have one, otherwise as above and also the same type. *)
Definition same_type (a b : v4i) : Prop :=
  match v_payload a, v_payload b with
  | SyncHttp _ _, SyncHttp _ _ => True
  | AsyncMessage _, AsyncMessage _ => True
  | SyncMessage _ _, SyncMessage _ _ => True
  | _, _ => False
  end.
Definition same_v4 (a b : v4i) : Prop :=
  match v_key a, v_key b with
  | Some x, Some y => x = y
  | _, _ => v_desc a = v_desc b /\ (v_states a = [] \/ map st_name (v_states a) = map st_name (v_states b)) /\
            same_type a b
  end.

(** Two maps (lists with distinct keys) are equal if they agree at every key. *)
Definition same_map {A} (eqv : A -> A -> Prop) (a b : list (str * A)) : Prop :=
  forall k, match obj_get k a, obj_get k b with
            | Some x, Some y => eqv x y
            | None, None => True
            | _, _ => False
            end.
(** JSON values are compared as serde_json does (0.0 and -0.0 are equal). *)
Definition same_states (a b : list pstate) : Prop :=
  Forall2 (fun x y => st_name x = st_name y /\ same_map (fun u v => json_eqb u v = true) (st_params x) (st_params y)) a b.
Definition same_query (a b : option query_map) : Prop :=
  match a, b with
  | Some x, Some y => same_map eq x y
  | None, None => True
  | _, _ => False
  end.
(** Two V3 interactions conflict: one is not an HTTP interaction, or they have the same
    description and provider states but a different method, path, query or status. *)
Definition conflict_between (a : rr) (b : interaction) : Prop :=
  match as_request_response b with
  | None => True
  | Some o => rr_desc a = rr_desc o /\ same_states (rr_states a) (rr_states o) /\
      (req_method (rr_req a) <> req_method (rr_req o) \/ req_path (rr_req a) <> req_path (rr_req o) \/
       ~ same_query (req_query (rr_req a)) (req_query (rr_req o)) \/
       resp_status (rr_resp a) <> resp_status (rr_resp o))
  end.
(** A pact whose maps have distinct keys, as maps have. *)
Definition distinct {A} (m : list (str * A)) : Prop := NoDup (map fst m).
Definition rr_ok (r : rr) : Prop :=
  Forall (fun s => distinct (st_params s)) (rr_states r) /\
  match req_query (rr_req r) with Some q => distinct q | None => True end.
