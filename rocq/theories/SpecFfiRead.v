(** Specification of the calls of the C interface that look at an interaction, set its contents and iterate over its parts. *)
From Coq Require Import Ascii String List Arith NArith ZArith Lia Bool Sorted Permutation.
From Verif Require Import Base PathExp Json Text MatchingRules Matchers Headers ContentType SpecQuery Http Expr Generators RuleExpr Merge Handles FfiRead.
Import ListNotations.
Open Scope N_scope.

(** Bytes that are the UTF-8 form of a text. *)
Definition encodes (bs : list N) (s : str) : Prop := bs = utf8 s /\ Forall (fun c => scalar c = true) s.
Definition is_utf8 (bs : list N) : Prop := exists s, encodes bs s.
(** What C can hold as a string. *)
Definition no_nul (bs : list N) : Prop := ~ In 0 bs.

(** ** Contents *)
(** Contents that are marked as text, or are not marked and have the content type of a text. *)
Definition textual (ct : option content_type) (h : option hint) : Prop :=
  h = Some HTextual \/ (h = None /\ exists c, ct = Some c /\ is_text c = true).
Inductive shown : body -> answer (list N) -> Prop :=
| sh_missing : shown BMissing Null
| sh_empty : shown BEmpty (Gave [])
| sh_null : shown BNull (Gave [])
| sh_text : forall bs ct h, textual ct h -> is_utf8 bs -> no_nul bs -> shown (BPresent bs ct h) (Gave bs)
| sh_nul : forall bs ct h, textual ct h -> is_utf8 bs -> In 0 bs -> shown (BPresent bs ct h) Failed
| sh_other : forall bs ct h, ~ (textual ct h /\ is_utf8 bs) -> shown (BPresent bs ct h) (Gave []).

Section Set_.
Variable x : externals.
Variable lossy : list N -> str.

(** The content type a setter keeps: none for NULL, for an empty text and for what is no content type. *)
Inductive type_kept : option (list N) -> option content_type -> Prop :=
| tk_null : type_kept None None
| tk_empty : type_kept (Some []) None
| tk_text : forall b bs s, encodes (b :: bs) s -> type_kept (Some (b :: bs)) (parse_mime x s)
| tk_lossy : forall b bs, ~ is_utf8 (b :: bs) -> type_kept (Some (b :: bs)) (parse_mime x (lossy (b :: bs))).
(** The contents a call gives to a part. A text that is not UTF-8 is refused. *)
Inductive stores : set_call -> place -> body -> Prop :=
| st_no_text : forall p ct, stores (SetText p None ct) p BNull
| st_text : forall p bs ct t, is_utf8 bs -> type_kept ct t -> stores (SetText p (Some bs) ct) p (BPresent bs t (Some HTextual))
| st_no_bytes : forall p ct, stores (SetBytes p None ct) p BNull
| st_bytes : forall p bs ct t, type_kept ct t -> stores (SetBytes p (Some bs) ct) p (BPresent bs t (Some HBinary)).
(** The parts each kind of interaction has. *)
Definition part_of_kind (p : place) (i : payload) : Prop :=
  match i with
  | SyncHttp _ _ => p = PRequest \/ p = PResponse
  | AsyncMessage _ => p = PContents
  | SyncMessage _ _ => p = PMessageRequest \/ exists n, p = PReply n
  end.
(** The number of the response a call is about. *)
Definition names_reply (c : set_call) (n : nat) : Prop :=
  (exists t ct, c = SetText (PReply n) t ct) \/ (exists b ct, c = SetBytes (PReply n) b ct).
(** Everything of an interaction but its contents; a response that was not there before is an empty one. *)
Definition same_message_but (a b : message) : Prop := msg_metadata b = msg_metadata a /\ msg_rules b = msg_rules a.
Definition same_but_contents (i j : payload) : Prop :=
  match i, j with
  | SyncHttp q r, SyncHttp q' r' =>
      req_method q' = req_method q /\ req_path q' = req_path q /\ req_query q' = req_query q /\ req_headers q' = req_headers q /\
      req_rules q' = req_rules q /\ resp_status r' = resp_status r /\ resp_headers r' = resp_headers r /\ resp_rules r' = resp_rules r
  | AsyncMessage m, AsyncMessage m' => same_message_but m m'
  | SyncMessage q l, SyncMessage q' l' =>
      same_message_but q q' /\
      forall n m', nth_error l' n = Some m' ->
        match nth_error l n with
        | Some m => same_message_but m m'
        | None => msg_metadata m' = [] /\ msg_rules m' = []
        end
  | _, _ => False
  end.
End Set_.

(** ** Iterators *)
Definition path_order {A} (a b : docpath * A) : Prop := path_expr (fst a) = path_expr (fst b) \/ str_lt (path_expr (fst a)) (path_expr (fst b)).
(** The items are in the order of the texts of their paths, and the items of a path are exactly its rules, in their order. *)
Definition lists_rules {R} (rules : list (docpath * rulelist_ R)) (items : list (docpath * R)) : Prop :=
  StronglySorted path_order items /\
  (forall p r, In (p, r) items -> exists l, In (p, l) rules /\ In r (rl_rules l)) /\
  forall p l, In (p, l) rules -> filter (fun i => path_eqb (fst i) p) items = map (pair p) (rl_rules l).
Definition lists_generators (g : list (docpath * generator)) (items : list (docpath * generator)) : Prop :=
  StronglySorted path_order items /\ Permutation g items.
(** The answers of a number of calls: one for each item, then NULL. *)
Definition one_by_one {A B} (f : A -> answer B) (items : list A) (n : nat) (answers : list (answer B)) : Prop :=
  length answers = n /\
  forall k, (k < n)%nat -> nth_error answers k = Some (match nth_error items k with Some a => f a | None => Null end).
(** The answer for an item with the text [t]. *)
Definition answer_ok {B} (t : str) (v : B) (r : answer (list N * B)) : Prop :=
  (~ In 0 t -> r = Gave (utf8 t, v)) /\ (In 0 t -> r = Failed).
