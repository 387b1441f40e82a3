(** Specification of the requests to the provider. *)
From Coq Require Import String List NArith Bool Permutation Sorted.
From Verif Require Import Base PathExp Json MatchingRules Headers Query ContentType JsonCompare Http VerifierClient.
Import ListNotations.
Open Scope N_scope.

Definition ends_with_slash (s : str) : Prop := exists b, s = b ++ [47].
Definition starts_with_slash (s : str) : Prop := exists b, s = 47 :: b.
(** [base] and [path] with exactly one slash between them. *)
Definition joined (base path url : str) : Prop :=
  exists b m n p, base = b ++ repeat 47 m /\ ~ ends_with_slash b /\ path = repeat 47 n ++ p /\ ~ starts_with_slash p /\ url = b ++ [47] ++ p.

(** The query as it is written: all values of a parameter together and in their order, the parameters by name. *)
Definition written_query (q : query_map) (l : list (str * option str)) : Prop :=
  exists q', Permutation q q' /\ Sorted (fun a b => str_compare (fst a) (fst b) <> Gt) q' /\
    l = flat_map (fun kv => map (pair (fst kv)) (snd kv)) q'.

(** The values of a header among the pairs of a request. *)
Definition values_of (name : str) (l : list (str * str)) : list str :=
  flat_map (fun nv => if str_eqb (fst nv) name then [snd nv] else []) l.
Definition named (cx : client_externals) (name k : str) : bool :=
  match http_name cx k with Some n => str_eqb n name | None => false end.
(** The values of a header of the pact; those of which the exact name is that of a custom header are left out. *)
Definition pact_values (cx : client_externals) (h : option hmap) (custom : list (str * str)) (name : str) : list str :=
  flat_map (fun kv => if named cx name (fst kv) && negb (existsb (fun c => str_eqb (fst kv) (fst c)) custom) then snd kv else [])
           (match h with Some m => m | None => [] end).
Definition custom_values (cx : client_externals) (custom : list (str * str)) (name : str) : list str :=
  flat_map (fun kv => if named cx name (fst kv) then [snd kv] else []) custom.

(** The answer of one of at most [retries] requests: the first that is no server error, or else the last. *)
Definition retried {A} (server_error : A -> bool) (send : nat -> A) (retries : nat) (a : A) (sent : nat) : Prop :=
  (1 <= sent <= retries)%nat /\ a = send (sent - 1)%nat /\
  (forall k, (k < sent - 1)%nat -> server_error (send k) = true) /\
  (server_error a = true -> sent = retries).
