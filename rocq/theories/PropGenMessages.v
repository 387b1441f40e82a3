(** C72: generating V4 messages. *)
From Coq Require Import String List Arith NArith Lia Bool Permutation.
From Verif Require Import Base PathExp Json Text MatchingRules Headers Query ContentType JsonCompare Http Expr Generators GenApply SpecGenApply
  GenApplyProofs PropGenApply GenRequest SpecGenRequest HeaderProofs2 PropGenRequest.
Import ListNotations.
Open Scope N_scope.

Section Messages.
Variable w : world.
Variable x : externals.
Variable out : outcomes.
Variable form_show : list (str * str) -> option (list N).
Variable mode : test_mode.
Variable message_type : body -> list (str * json) -> content_type.

(** What a generator gives for a metadata entry of the original message; if it gives nothing, what was there stays. *)
Definition from_original (gen : json -> option json) (original old : option json) : option json :=
  match gen (match original with Some v => v | None => JNull end) with Some v => Some v | None => old end.

Lemma async_step_at : forall name original m k g,
  obj_get name (async_meta_step out original m k g) =
  if (match first_field k with Some f => str_eqb f name | None => false end) then from_original (out_meta out k g) (obj_get name original) (obj_get name m) else obj_get name m.
Proof.
  intros name original m k g. unfold async_meta_step. destruct (first_field k) as [f|]; [|reflexivity]. unfold from_original.
  destruct (str_eqb_spec f name) as [->|Ne].
  - match goal with |- context [out_meta out k g ?a] => destruct (out_meta out k g a) end; [rewrite sm_insert_get, str_eqb_refl|]; reflexivity.
  - assert (E : str_eqb name f = false) by (apply str_eqb_neq; intro H; apply Ne; symmetry; exact H).
    match goal with |- context [out_meta out k g ?a] => destruct (out_meta out k g a) end; rewrite ?sm_insert_get, ?E; reflexivity.
Qed.
(** C72: an asynchronous message. Each metadata entry is what the last of its generators that gives anything makes of the original value; the contents are
    generated by the content type of the original message. *)
Theorem C72_async_message : forall g m,
  let m' := generate_async_message w x out form_show mode message_type g m in
  msg_rules m' = msg_rules m /\
  (forall name, obj_get name (msg_metadata m') =
     fold_left (fun v pg => from_original (out_meta out (fst pg) (snd pg)) (obj_get name (msg_metadata m)) v)
       (for_name name (applicable mode (build_generators out g (msg_rules m) GcMetadata))) (obj_get name (msg_metadata m))) /\
  body_generated_from w x out form_show mode (build_generators out g (msg_rules m) GcBody) (message_type (msg_contents m) (msg_metadata m))
    (msg_contents m) (msg_contents m').
Proof.
  intros g m m'. subst m'. unfold generate_async_message. cbn [msg_rules msg_metadata msg_contents]. split; [reflexivity|]. split.
  - intro name. rewrite apply_filter.
    apply (fold_at_name _ _ (obj_get name) (async_meta_step out (msg_metadata m)) (fun k g v => from_original (out_meta out k g) (obj_get name (msg_metadata m)) v)).
    intros. apply async_step_at.
  - apply body_generated_ok.
Qed.
(** C72: a synchronous message: the request and each response by its own generators and by nothing of the others. *)
Theorem C72_sync_message : forall req resps,
  let r := generate_sync_message w x out form_show mode message_type (req, resps) in
  fst r = generate_message w x out form_show mode message_type (fst req) (snd req) /\ length (snd r) = length resps /\
  forall k p, nth_error resps k = Some p -> nth_error (snd r) k = Some (generate_message w x out form_show mode message_type (fst p) (snd p)).
Proof.
  intros req resps r. split; [reflexivity|]. split; [apply map_length|]. intros k p H. unfold r, generate_sync_message. cbn [snd]. rewrite nth_error_map, H. reflexivity.
Qed.
(** C72: with at most one generator for each entry the two ways of generating metadata agree. *)
Theorem C72_async_as_message : forall g m,
  (forall name, (length (for_name name (applicable mode (build_generators out g (msg_rules m) GcMetadata))) <= 1)%nat) ->
  forall name, obj_get name (msg_metadata (generate_async_message w x out form_show mode message_type g m)) =
               obj_get name (msg_metadata (generate_message w x out form_show mode message_type g m)).
Proof.
  intros g m L name. destruct (C72_async_message g m) as (_ & H & _). destruct (C72_message w x out form_show mode message_type g m) as (_ & H').
  rewrite H, H'. specialize (L name). destruct (for_name name _) as [|pg [|pg' l]]; [reflexivity|reflexivity|cbn in L; lia].
Qed.
End Messages.
(** (why) With two generators for one entry they do not: an asynchronous message forgets what the first one made. *)
Theorem C72_why_async : forall w x form_show mt,
  let out := mkOut (fun _ _ _ _ _ => None) (fun _ _ _ _ => None) (fun _ _ _ => None)
               (fun _ g v => match g, v with GRandomBoolean, JStr s => Some (JStr (s ++ S_ "1")) | _, JStr s => Some (JStr (s ++ S_ "2")) | _, _ => None end) (fun _ _ => []) in
  let g := [(GcMetadata, [(push_field path_root (S_ "a"), GRandomBoolean); (push_index (push_field path_root (S_ "a")) 0, GUuid None)])] in
  let m := mkMsg BMissing [(S_ "a", JStr (S_ "x"))] [] in
  msg_metadata (generate_message w x out form_show Consumer mt g m) = [(S_ "a", JStr (S_ "x12"))] /\
  msg_metadata (generate_async_message w x out form_show Consumer mt g m) = [(S_ "a", JStr (S_ "x2"))].
Proof. intros. split; reflexivity. Qed.
