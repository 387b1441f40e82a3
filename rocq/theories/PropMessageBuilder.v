(** C112: asynchronous messages described with the consumer DSL. *)
From Coq Require Import Ascii String List Arith NArith ZArith Lia Bool Permutation Sorted.
From Verif Require Import Base PathExp PathExpProofs SpecPath PropPath Json Text TextProofs MatchingRules RulesV2 SpecRules Matchers JsonCompare SpecMatch SpecValues
  CompareProofs CompareProofs2 SpecBody BodyProofs Headers Query ContentType SpecXml SpecQuery SpecHeaders SpecHttp Http QueryProofs PropHttp PropHttp2 PropHeaders Pattern SpecPattern PatternProofs PropPattern PropPattern2
  SpecParams PropParams PropParams2 PropXml Expr Generators SpecGenerators PropGenerators Builder SpecBuilder BuilderProofs BuilderProofs2 BuilderProofs3 BuilderProofs4 PropBuilder PropBuilder2
  Merge PactFile OldFile MessageBuilder PropMessage SpecMessageBuilder.
Import ListNotations.
Open Scope N_scope.
Local Opaque show_N.

(** ** Metadata maps *)
Lemma meta_put_get : forall k k' v (m : list (str * json)), obj_get k (meta_put k' v m) = if str_eqb k' k then Some v else obj_get k m.
Proof.
  intros k k' v m. induction m as [|[k0 v0] m IH]; cbn [meta_put obj_get].
  - destruct (str_eqb_spec k k') as [->|Ne]; [rewrite str_eqb_refl; reflexivity|]. destruct (str_eqb_spec k' k); congruence.
  - destruct (str_eqb_spec k' k0) as [->|Ne]; cbn [obj_get].
    + destruct (str_eqb_spec k k0) as [->|Ne]; [rewrite str_eqb_refl; reflexivity|]. destruct (str_eqb_spec k0 k); congruence.
    + rewrite IH. destruct (str_eqb_spec k k0) as [->|]; [|reflexivity]. destruct (str_eqb_spec k' k0); congruence.
Qed.
Lemma meta_put_keys : forall k v (m : list (str * json)), NoDup (keys m) -> NoDup (keys (meta_put k v m)).
Proof.
  intros k v m. induction m as [|[k0 v0] m IH]; cbn [meta_put keys map fst]; intro H; [constructor; [intros [] | constructor]|].
  inversion H as [|? ? H1 H2]; subst. destruct (str_eqb_spec k k0) as [->|Ne]; cbn [keys map fst]; [exact H|].
  constructor; [|apply IH, H2]. intro J. apply H1. clear -J Ne. induction m as [|[k1 v1] m IH]; cbn [meta_put map fst] in *.
  - destruct J as [J|[]]; congruence.
  - destruct (str_eqb k k1); cbn [map fst] in J; destruct J as [J|J]; [left; exact J | right; exact J | left; exact J | right; exact (IH J)].
Qed.
Lemma put_all_get : forall k (l m : list (str * json)), NoDup (keys l) ->
  obj_get k (fold_left (fun m kv => meta_put (fst kv) (snd kv) m) l m) = match obj_get k l with Some v => Some v | None => obj_get k m end.
Proof.
  intros k l. induction l as [|[k0 v0] l IH]; intros m H; [reflexivity|]. cbn [fold_left fst snd obj_get]. inversion H as [|? ? H1 H2]; subst.
  rewrite (IH _ H2), meta_put_get. destruct (str_eqb_spec k k0) as [->|Ne].
  - rewrite str_eqb_refl. destruct (obj_get k0 l) as [v|] eqn:E; [|reflexivity]. exfalso. apply H1. apply obj_get_in in E. apply (in_map fst) in E. exact E.
  - destruct (str_eqb_spec k0 k); [congruence | reflexivity].
Qed.
Lemma put_all_keys : forall (l m : list (str * json)), NoDup (keys m) -> NoDup (keys (fold_left (fun m kv => meta_put (fst kv) (snd kv) m) l m)).
Proof. intro l. induction l as [|[k0 v0] l IH]; intros m H; [exact H|]. cbn [fold_left]. apply IH, meta_put_keys, H. Qed.

(** ** About an interaction *)
Lemma flat_snoc : forall A B (f : A -> list B) l c, flat_map f (l ++ [c]) = flat_map f l ++ f c.
Proof. intros. rewrite flat_map_app. cbn [flat_map]. rewrite app_nil_r. reflexivity. Qed.
Lemma last_of_nil : forall A, last_of (@nil A) = None. Proof. reflexivity. Qed.
Lemma about_after : forall l, let a := fold_left about_step l about_start in
  ab_states a = states_said l /\ ab_comments a = comments_said l /\ ab_test a = last_of (names_said l) /\ ab_key a = last_of (keys_said l) /\
  (match ab_pending a with Some b => b | None => false end) = last (pending_said l) false /\
  ab_pending a = last_of (pending_said l) /\ ab_transport a = last_of (transports_said l).
Proof.
  intro l. induction l as [|c l IH] using rev_ind; [repeat (apply conj); reflexivity|]. cbv zeta in *. rewrite fold_left_app. cbn [fold_left].
  destruct IH as (H1 & H2 & H3 & H4 & H5 & H6 & H7).
  unfold states_said, comments_said, names_said, keys_said, pending_said, transports_said in *. rewrite !flat_snoc.
  destruct c as [n|n j|s|s|k|b|s]; cbn [about_step ab_states ab_comments ab_test ab_key ab_pending ab_transport];
    rewrite ?app_nil_r, ?last_of_snoc, ?last_last, ?H1, ?H2, ?H3, ?H4, ?H5, ?H6, ?H7; repeat (apply conj); try reflexivity; try assumption.
  - destruct j; reflexivity.
Qed.

Section Built.
Variable w : world.
Variable x : externals.
Notation sp := (is_space w).

(** ** The contents *)
Lemma since_snoc : forall l c, since (l ++ [c]) = if sets_everything c then [] else since l ++ [c].
Proof.
  intros l c. induction l as [|c0 l IH]; [cbn; destruct (sets_everything c); reflexivity|]. cbn [app since]. rewrite IH, existsb_app. cbn [existsb]. rewrite orb_false_r.
  destruct (existsb sets_everything l) eqn:E; cbn [orb]; [destruct (sets_everything c); reflexivity|].
  destruct (sets_everything c) eqn:E2; [reflexivity|]. destruct (sets_everything c0); reflexivity.
Qed.
Definition contents_after (l : list contents_call) : contents_b := fold_left (contents_step w x) l contents_start.
Lemma contents_snoc : forall l c, contents_after (l ++ [c]) = contents_step w x (contents_after l) c.
Proof. intros. unfold contents_after. rewrite fold_left_app. reflexivity. Qed.
Lemma body_after_calls : forall l, cb_body (contents_after l) = last (flat_map (body_said w x) l) BMissing.
Proof.
  intro l. induction l as [|c l IH] using rev_ind; [reflexivity|]. rewrite contents_snoc, flat_snoc.
  destruct c; cbn [contents_step cb_body body_said]; rewrite ?last_last; try reflexivity. rewrite app_nil_r. exact IH.
Qed.
Definition metadata_once (l : list contents_call) : Prop := forall m g, In (CContents m g) l -> NoDup (keys (msg_metadata m)).
Lemma hd_error_app : forall A (l l' : list A), hd_error (l ++ l') = match l with [] => hd_error l' | a :: _ => Some a end.
Proof. intros A [|a l] l'; reflexivity. Qed.
Lemma metadata_after : forall l, metadata_once l -> NoDup (keys (meta_list (cb_meta (contents_after l)))) /\
  forall k, obj_get k (meta_list (cb_meta (contents_after l))) = metadata_said l k.
Proof.
  intro l. induction l as [|c l IH] using rev_ind; intro ON; [split; [constructor | intro k; unfold metadata_said; cbn; destruct (str_eqb k _); reflexivity]|].
  destruct IH as [ND IH]; [intros m g J; apply (ON m g), in_or_app; left; exact J|]. rewrite contents_snoc.
  assert (SN : forall k, metadata_said (l ++ [c]) k =
    if sets_everything c then None else
    match last_of (values_said (since l) k ++ values_said [c] k) with
    | Some v => Some v
    | None => if str_eqb k (S_ "contentType") then option_map JStr (hd_error (types_said (since l) ++ types_said [c])) else None
    end).
  { intro k. unfold metadata_said. rewrite since_snoc. destruct (sets_everything c); [cbn; destruct (str_eqb k _); reflexivity|].
    unfold values_said, types_said. rewrite !flat_map_app. reflexivity. }
  destruct c as [k' v|p|b ct|m g|b]; cbn [contents_step cb_meta meta_list sets_everything] in *.
  - split; [apply meta_put_keys, ND|]. intro k. rewrite meta_put_get, SN, IH. unfold values_said at 2. unfold types_said at 2. cbn [flat_map]. rewrite !app_nil_r.
    destruct (str_eqb k' k); [rewrite last_of_snoc; reflexivity|]. rewrite app_nil_r. reflexivity.
  - split; [exact ND|]. intro k. rewrite SN, IH. cbn. rewrite !app_nil_r. reflexivity.
  - assert (forall k, obj_get k (meta_list (cb_meta (contents_after l))) = metadata_said l k) as IH' by exact IH.
    destruct ct as [t|].
    + unfold obj_has. rewrite IH. split; [destruct (metadata_said l (S_ "contentType")); [exact ND | apply meta_put_keys, ND]|].
      intro k. rewrite SN. unfold values_said at 2. unfold types_said at 2. cbn [flat_map]. rewrite !app_nil_r.
      destruct (str_eqb_spec k (S_ "contentType")) as [->|Ne].
      * destruct (metadata_said l (S_ "contentType")) as [v|] eqn:E.
        -- rewrite IH, E. unfold metadata_said in E. rewrite str_eqb_refl in E. destruct (last_of _) as [v'|]; [congruence|]. rewrite hd_error_app.
           destruct (types_said (since l)); [discriminate | symmetry; exact E].
        -- rewrite meta_put_get, str_eqb_refl. unfold metadata_said in E. rewrite str_eqb_refl in E. destruct (last_of _) as [v'|]; [discriminate|]. rewrite hd_error_app.
           destruct (types_said (since l)); [reflexivity | discriminate].
      * assert (obj_get k (meta_list (cb_meta (contents_after l))) = match last_of (values_said (since l) k) with Some v => Some v | None => None end) as R.
        { rewrite IH. unfold metadata_said. destruct (str_eqb_spec k (S_ "contentType")); [congruence | reflexivity]. }
        rewrite <- R. destruct (metadata_said l (S_ "contentType")); [reflexivity|]. rewrite meta_put_get.
        destruct (str_eqb_spec (S_ "contentType") k); [congruence | reflexivity].
    + split; [exact ND|]. intro k. rewrite SN, IH. cbn. rewrite !app_nil_r. reflexivity.
  - split; [apply put_all_keys, ND|]. intro k. rewrite put_all_get by (apply (ON m g), in_or_app; right; left; reflexivity). rewrite SN, IH.
    unfold values_said at 2. unfold types_said at 2. cbn [flat_map]. rewrite (entry_get _ k (msg_metadata m)), !app_nil_r.
    destruct (obj_get k (msg_metadata m)); [rewrite last_of_snoc; reflexivity|]. rewrite app_nil_r. reflexivity.
  - split; [constructor|]. intro k. rewrite SN. reflexivity.
Qed.
(** Rules: those of the patterns. *)
Definition add_pattern (o : option category) (p : pattern) : option category :=
  if cat_is_empty (body_rules_of p) then o else match o with None => Some (body_rules_of p) | Some c => Some (cat_add_rules c (body_rules_of p)) end.
Lemma rules_after : forall l, whole_contents l = [] ->
  cb_rules (contents_after l) = fold_left add_pattern (patterns_said l) None /\ cb_meta_rules (contents_after l) = None /\ cb_gens (contents_after l) = None.
Proof.
  intro l. induction l as [|c l IH] using rev_ind; intro NW; [repeat (apply conj); reflexivity|]. rewrite contents_snoc.
  unfold whole_contents, patterns_said in *. rewrite since_snoc in *.
  destruct c as [k' v|p|b ct|m g|b]; cbn [contents_step cb_rules cb_meta_rules cb_gens sets_everything] in *; try (repeat (apply conj); reflexivity);
    rewrite flat_snoc in *; rewrite ?app_nil_r in *; try (apply IH; exact NW).
  - destruct (IH NW) as (H1 & H2 & H3). rewrite fold_left_app. cbn [fold_left]. rewrite H1, H2, H3. repeat (apply conj); reflexivity.
  - apply app_eq_nil in NW as [_ NW]. discriminate.
Qed.

(** ** From calls to contents *)
Lemma given_async : forall j b, contents_from_async w x j = Ok b -> contents_given w x j = [b].
Proof.
  intros j b H. unfold contents_from_async in H. unfold contents_given, type_said. rewrite !entry_get. change (fields_said j) with (fields_of j).
  destruct (obj_get (S_ "pact:content-type") (fields_of j)) as [v|]; [|injection H as <-; reflexivity].
  destruct (parse_mime x (json_to_string w v)) as [t|]; [|discriminate]. cbn [option_map]. rewrite entry_get.
  destruct (obj_get (S_ "contents") (fields_of j)); apply (f_equal (fun o => match o with Ok b => b | _ => BMissing end)) in H; subst b; reflexivity.
Qed.
Lemma async_state_after : forall h s s', async_steps w x s h = Ok s' ->
  fst s' = fold_left about_step (async_abouts h) (fst s) /\ snd s' = fold_left (contents_step w x) (async_calls w x h) (snd s).
Proof.
  intro h. induction h as [|c h IH]; intros s s' H; cbn [async_steps] in H; [injection H as <-; split; reflexivity|].
  unfold async_abouts, async_calls. cbn [flat_map].
  destruct c as [c|k v|j|p|b ct]; cbn [async_step bind] in H; try (apply IH in H as [-> ->]; split; reflexivity).
  destruct (contents_from_async w x j) as [b| |] eqn:E; try discriminate. cbn [bind] in H. rewrite (given_async j b E). apply IH in H as [-> ->]. split; reflexivity.
Qed.
Lemma async_total : forall h s, (forall j, In (MContentsFrom j) h -> type_readable w x j) -> exists s', async_steps w x s h = Ok s'.
Proof.
  intro h. induction h as [|c h IH]; intros s R; [exists s; reflexivity|]. cbn [async_steps].
  assert (exists s1, async_step w x s c = Ok s1) as [s1 ->].
  { destruct c as [c|k v|j|p|b ct]; cbn [async_step]; try (eexists; reflexivity).
    specialize (R j (or_introl eq_refl)). unfold contents_from_async.
    destruct (obj_get (S_ "pact:content-type") (fields_of j)) as [v|] eqn:E; [|cbn [bind]; eexists; reflexivity].
    destruct j; try discriminate. cbn [fields_of] in E. unfold type_readable in R. specialize (R v). rewrite (entry_get _ (S_ "pact:content-type") m) in R. specialize (R E).
    destruct (parse_mime x (json_to_string w v)); [|congruence]. cbn [bind]. eexists. reflexivity. }
  cbn [bind]. apply IH. intros j J. apply R. right. exact J.
Qed.
(** Describing a message panics only on a content type that cannot be read. *)
Theorem C112_async_panics : forall d h, (exists i, build_async w x d h = Ok i) \/ (exists j, In (MContentsFrom j) h /\ ~ type_readable w x j).
Proof.
  intros d h. unfold build_async.
  assert ((forall j, In (MContentsFrom j) h -> type_readable w x j) \/ exists j, In (MContentsFrom j) h /\ ~ type_readable w x j) as [H|H].
  { clear d. induction h as [|c h IH]; [left; intros j []|]. destruct IH as [IH|(j & J & N)]; [|right; exists j; split; [right; exact J | exact N]].
    destruct c as [c|k v|j|p|b ct]; try (left; intros j0 [J|J]; [discriminate | exact (IH j0 J)]).
    assert (type_readable w x j \/ ~ type_readable w x j) as [T|T].
    { unfold type_readable. destruct j; try (left; exact I). destruct (entry (S_ "pact:content-type") m) as [v|]; [|left; intros ? Z; discriminate].
      destruct (parse_mime x (json_to_string w v)) eqn:E; [left | right].
      - intros v0 Z. injection Z as <-. rewrite E. discriminate.
      - intro Z. exact (Z v eq_refl E). }
    - left. intros j0 [J|J]; [injection J as <-; exact T | exact (IH j0 J)].
    - right. exists j. split; [left; reflexivity | exact T]. }
  - left. destruct (async_total h (about_start, contents_start) H) as [s ->]. eexists. reflexivity.
  - right. exact H.
Qed.
Theorem C112_async_described : forall d h i, build_async w x d h = Ok i ->
  described d (async_abouts h) i /\ x_transport (f_extra i) = None /\
  exists m g, f_payload i = FAsync (m, g) /\
    msg_contents m = last (flat_map (body_said w x) (async_calls w x h)) BMissing /\
    (forall k, entry k (msg_metadata m) = metadata_said (async_calls w x h) k) /\ g = [].
Proof.
  intros d h i H. unfold build_async in H. destruct (async_steps w x (about_start, contents_start) h) as [s| |] eqn:E; try discriminate.
  cbn [bind] in H. injection H as <-. apply async_state_after in E as [E1 E2]. cbn [fst snd] in *. rewrite E1, E2.
  destruct (about_after (async_abouts h)) as (H1 & H2 & H3 & H4 & H5 & H6 & H7). cbv zeta in *.
  assert (NC : forall m g, ~ In (CContents m g) (async_calls w x h)).
  { intros m g J. unfold async_calls in J. apply in_flat_map in J as (c & _ & J). destruct c; cbn in J; try (destruct J as [J|[]]; discriminate); try contradiction.
    apply in_map_iff in J as (? & J & _). discriminate. }
  assert (WC : whole_contents (async_calls w x h) = []).
  { destruct (whole_contents (async_calls w x h)) as [|m ms] eqn:Z; [reflexivity|]. exfalso.
    assert (In m (whole_contents (async_calls w x h))) as J by (rewrite Z; left; reflexivity). unfold whole_contents in J. apply in_flat_map in J as (c & K & J).
    destruct c; try contradiction. destruct J as [->|[]]. apply (NC m g). revert K. generalize (async_calls w x h). clear. intro l.
    induction l as [|c l IH]; [intros []|]. cbn [since]. destruct (existsb _ l); [intro K; right; exact (IH K)|]. destruct (sets_everything c); [intro K; right; exact K | intro K; exact K]. }
  split; [|split; [reflexivity|]].
  - unfold described. cbn [f_id f_desc f_key f_states f_extra about_extra x_pending x_comments]. rewrite H1, H2, H3, H4, H5. repeat (apply conj); reflexivity.
  - eexists _, _. cbn [f_payload]. unfold async_contents. split; [reflexivity|]. cbn [msg_contents msg_metadata].
    fold (contents_after (async_calls w x h)). rewrite body_after_calls. split; [reflexivity|].
    destruct (metadata_after (async_calls w x h)) as [_ MD]; [intros m g J; destruct (NC m g J)|]. split.
    + intro k. rewrite entry_get. apply MD.
    + destruct (rules_after _ WC) as (_ & _ & ->). reflexivity.
Qed.
Theorem C112_v3_message : forall d h i, build_async w x d h = Ok i ->
  exists m, build_async_v3 w x d h = Ok m /\ om_id m = None /\ om_desc m = d /\ om_states m = states_said (async_abouts h) /\ f_payload i = FAsync (om_body m).
Proof.
  intros d h i H. unfold build_async in H. unfold build_async_v3. destruct (async_steps w x (about_start, contents_start) h) as [s| |] eqn:E; try discriminate.
  cbn [bind] in *. injection H as <-. apply async_state_after in E as [E1 E2]. cbn [fst snd] in *. rewrite E1.
  destruct (about_after (async_abouts h)) as (H1 & _). cbv zeta in *. eexists. split; [reflexivity|]. cbn [om_id om_desc om_states om_body f_payload]. rewrite H1. repeat (apply conj); reflexivity.
Qed.
End Built.
