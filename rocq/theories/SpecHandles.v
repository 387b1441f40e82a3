(** Specification of the handles of the C interface. *)
From Coq Require Import List Arith NArith Bool.
From Verif Require Import Base Json Merge Handles.
Import ListNotations.
Open Scope N_scope.

(** The handle [h] stands for the interaction [v]: it is made of the number of a pact and
    the place of the interaction in that pact, counted from one. *)
Definition denotes (t : table) (h : N) (v : v4i) : Prop :=
  exists p n inn, p < 65536 /\ 1 <= n < 65536 /\ h = p * 65536 + n /\
    tab_get p t = Some inn /\ nth_error (inner_ints inn) (N.to_nat n - 1) = Some v.

(** Calls a C program can make: handles are u16 and u32; the number of a new pact is not in use. *)
Definition proper (t : table) (c : call) : Prop :=
  match c with
  | CNewPact _ _ id => id < 65536 /\ tab_get id t = None
  | CNewInteraction _ p _ | CNewMessage p _ | CNewAsyncMessage p _ | CSpec p _ | CStart p | CFree p => p < 65536
  | CEdit h _ | CMessageEdit h _ => h < 4294967296
  end.
(** A history of such calls, none of which panics. *)
Inductive history (w : world) (checks : bool) : table -> list call -> table -> Prop :=
  | h_nil : forall t, history w checks t [] t
  | h_cons : forall t c r t1 cs t2, proper t c -> do_call w checks t c = Ok (r, t1) ->
      history w checks t1 cs t2 -> history w checks t (c :: cs) t2.

(** A call that does not concern the interaction [v] with the handle [h]. *)
Definition leaves_alone (h : N) (v : v4i) (c : call) : Prop :=
  match c with
  | CEdit h' _ | CMessageEdit h' _ => h' <> h
  | CNewInteraction _ p (Some d) => handle_pact h = p -> d <> v_desc v
  | CFree p => handle_pact h <> p
  | _ => True
  end.
Definition does_not_free (p : N) (c : call) : Prop := match c with CFree q => q <> p | _ => True end.
