(** C100: a V4 pact written in the format of an older version; which file is loaded as which kind of pact. *)
From Coq Require Import Ascii String List Arith NArith ZArith Lia Bool Permutation Sorted.
From Verif Require Import Base PathExp Json Text TextProofs MatchingRules Matchers JsonCompare Headers Query QueryString ContentType Http Merge Expr Generators Base64 PactFile OldFile
  SpecQuery SpecRules SpecRulesV2 SpecGenerators SpecVerifier PropHeaders SpecPactFile SpecOldFile SpecConvert PropVerifier PropBroker2 PropStateChange QueryProofs
  PactFileProofs PactFileProofs2 PropPactFile OldFileProofs OldFileProofs2 PropOldFile PropConvert.
Import ListNotations.
Open Scope N_scope.
Local Opaque show_N.

(** ** Metadata *)
Section Kept.
Context {A B : Type}.
Variable g : str -> A -> option B.
Definition kept (md : list (str * A)) : list (str * B) :=
  flat_map (fun kv => match g (fst kv) (snd kv) with Some v => [(fst kv, v)] | None => [] end) md.
Lemma kept_keys : forall md k, In k (map fst (kept md)) -> In k (map fst md).
Proof.
  induction md as [|[k v] md IH]; intros k' H; [destruct H|]. unfold kept in H. cbn [flat_map fst snd] in H. rewrite map_app in H. apply in_app_or in H. cbn [map fst In].
  destruct H as [H|H]; [|right; apply IH, H]. destruct (g k v); [|destruct H]. destruct H as [H|[]]. left. exact H.
Qed.
Lemma kept_distinct : forall md, NoDup (map fst md) -> NoDup (map fst (kept md)).
Proof.
  induction md as [|[k v] md IH]; intro H; [constructor|]. cbn [map fst] in H. inversion H as [|? ? H1 H2]; subst.
  unfold kept. cbn [flat_map fst snd]. destruct (g k v); [|apply IH, H2]. cbn [app map fst]. constructor; [|apply IH, H2]. intro I1. apply H1, kept_keys, I1.
Qed.
Lemma kept_get : forall md k, NoDup (map fst md) -> obj_get k (kept md) = match obj_get k md with Some v => g k v | None => None end.
Proof.
  induction md as [|[k v] md IH]; intros k' H; [reflexivity|]. cbn [map fst] in H. inversion H as [|? ? H1 H2]; subst.
  unfold kept. cbn [flat_map fst snd obj_get]. fold (kept md). destruct (str_eqb_spec k' k) as [->|Ne].
  - destruct (g k v); [cbn [app obj_get]; rewrite str_eqb_refl; reflexivity|]. cbn [app]. apply obj_get_none. intro I1. apply H1, kept_keys, I1.
  - destruct (g k v); cbn [app obj_get]; [destruct (str_eqb_spec k' k); [contradiction|]|]; apply IH, H2.
Qed.
End Kept.
Section Down.
Variable w : world.
Definition texts (m : list (str * json)) : list (str * str) := map (fun kv => (fst kv, json_to_string w (snd kv))) m.
Definition entry_kept (k : str) (j : json) : option (list (str * str)) := match j with JObj m => Some (texts m) | _ => None end.
Definition http_entry_kept (k : str) (j : json) : option (list (str * str)) :=
  if str_eqb k (S_ "pactSpecification") then Some [(S_ "version", version_str SV3)] else entry_kept k j.
Lemma texts_get : forall m k, obj_get k (texts m) = option_map (json_to_string w) (obj_get k m).
Proof. intros m k. unfold texts. apply (obj_get_map json str (json_to_string w)). Qed.
Lemma http_meta : forall p, hp_meta (v4_as_http w p) = kept http_entry_kept (vf_meta p).
Proof.
  intro p. unfold v4_as_http, kept. cbn [hp_meta]. apply flat_map_ext. intros [k v]. unfold http_entry_kept. cbn [fst snd].
  destruct (str_eqb k (S_ "pactSpecification")); [reflexivity|]. unfold downgrade_entry, entry_kept. cbn [fst snd]. destruct v; reflexivity.
Qed.
Lemma message_meta : forall p, mf_meta (v4_as_message w p) = kept entry_kept (vf_meta p).
Proof. intro p. unfold v4_as_message, kept. cbn [mf_meta]. apply flat_map_ext. intros [k v]. unfold downgrade_entry, entry_kept. cbn [fst snd]. destruct v; reflexivity. Qed.
Lemma kept_ok : forall g md, (forall k v o, g k v = Some o -> o = [(S_ "version", version_str SV3)] \/ exists m, v = JObj m /\ o = texts m) ->
  metadata_fits md -> old_metadata_ok (kept g md).
Proof.
  intros g md Hg (D & Di & N1 & N2). split; [apply kept_distinct, D|]. split.
  - rewrite Forall_forall. intros [k o] I1. cbn [snd]. unfold kept in I1. apply in_flat_map in I1. destruct I1 as ([k' v] & I1 & I2). cbn [fst snd] in I2.
    destruct (g k' v) as [o'|] eqn:E; [|destruct I2]. destruct I2 as [I2|[]]. injection I2 as -> ->. destruct (Hg _ _ _ E) as [->|(m & -> & ->)]; [repeat constructor; intros []|].
    unfold distinct, texts. rewrite map_map. exact (Di _ _ I1).
  - rewrite !entry_obj_get in *. split; rewrite kept_get by exact D; [rewrite N1|rewrite N2]; reflexivity.
Qed.
Lemma metadata_downgraded : forall lib v g md md', (forall k j, k <> S_ "pactSpecification" -> g k j = entry_kept k j) -> metadata_fits md ->
  same_old_metadata lib v (kept g md) md' -> metadata_in_old w lib v md md'.
Proof.
  intros lib v g md md' Hg (D & _) (V & (m & R1 & R2 & R3) & Oth). split; [exact V|].
  change (@entry json) with (@obj_get json) in *. change (@entry str) with (@obj_get str) in *. change (@entry (list (str * str))) with (@obj_get (list (str * str))) in *. split.
  - exists m. split; [exact R1|]. split; [exact R2|]. intros k Nk. rewrite (R3 k Nk), kept_get by exact D. destruct (obj_get (S_ "pactRust") md) as [j|]; [|reflexivity].
    rewrite Hg by discriminate. unfold entry_kept. destruct j; try reflexivity. apply texts_get.
  - intros k K1 K2. specialize (Oth k K1 K2). rewrite kept_get in Oth by exact D. destruct (obj_get k md) as [j|]; [|destruct (obj_get k md'); [contradiction|reflexivity]].
    rewrite (Hg _ _ K1) in Oth. unfold entry_kept in Oth. destruct j; cbn [same_option] in Oth; try (destruct (obj_get k md'); [contradiction|reflexivity]).
    destruct (obj_get k md') as [o|]; [|contradiction]. exists o. split; [reflexivity|]. intro k'. rewrite <- (Oth k'). apply texts_get.
Qed.
End Down.

(** ** Interactions *)
Lemma kind_http : forall i, kind_of i = KHttp <-> is_http i.
Proof. intro i. unfold kind_of, is_http. destruct (f_payload i); split; intro H; try discriminate; eauto; destruct H as (? & ? & ?); discriminate. Qed.
Lemma kind_async : forall i, kind_of i = KAsync <-> is_async i.
Proof. intro i. unfold kind_of, is_async. destruct (f_payload i); split; intro H; try discriminate; eauto; try destruct H as (? & H); discriminate. Qed.
Lemma kind_sync : forall i, kind_of i = KSync <-> is_sync i.
Proof. intro i. unfold kind_of, is_sync. destruct (f_payload i); split; intro H; try discriminate; eauto; destruct H as (? & ? & ?); discriminate. Qed.
Lemma kind_same : forall i j, kind_of i = kind_of j <-> same_kind i j.
Proof.
  intros i j. unfold same_kind. rewrite <- !kind_http, <- !kind_async, <- !kind_sync. destruct (kind_of i), (kind_of j); split; intro H; try discriminate; try reflexivity; try tauto; intuition discriminate.
Qed.
Lemma kind_eqb_iff : forall a b, kind_eqb a b = true <-> a = b.
Proof. destruct a, b; cbn; split; congruence. Qed.
Lemma mixed_iff : forall l, mixed l = true <-> exists i j, In i l /\ In j l /\ ~ same_kind i j.
Proof.
  intros [|a l]; cbn [mixed]; [split; [discriminate|intros (i & j & [] & _)]|]. rewrite negb_true_iff. split.
  - intro F. assert (exists j, In j l /\ kind_eqb (kind_of a) (kind_of j) = false) as (j & I1 & K).
    { induction l as [|b l IH]; cbn [forallb] in F; [discriminate|]. destruct (kind_eqb (kind_of a) (kind_of b)) eqn:E; [|exists b; split; [left; reflexivity|exact E]].
      destruct (IH F) as (j & I1 & K). exists j. split; [right; exact I1|exact K]. }
    exists a, j. split; [left; reflexivity|]. split; [right; exact I1|]. intro K'. apply kind_same, kind_eqb_iff in K'. congruence.
  - intros (i & j & I1 & I2 & K). destruct (forallb _ l) eqn:F; [|reflexivity]. exfalso. apply K. apply kind_same.
    rewrite forallb_forall in F. assert (H : forall b, In b (a :: l) -> kind_of b = kind_of a).
    { intros b [<-|Ib]; [reflexivity|]. symmetry. apply kind_eqb_iff, F, Ib. }
    rewrite (H i I1), (H j I2). reflexivity.
Qed.
Lemma has_kind_iff : forall k l, has_kind k l = true <-> exists i, In i l /\ kind_of i = k.
Proof.
  intros k l. unfold has_kind. rewrite existsb_exists. split; intros (i & I1 & E); exists i; (split; [exact I1|]); [symmetry; apply kind_eqb_iff, E|apply kind_eqb_iff; symmetry; exact E].
Qed.
Lemma not_mixed : forall l k, (forall i, In i l -> kind_of i = k) -> mixed l = false.
Proof.
  intros l k H. destruct (mixed l) eqn:M; [|reflexivity]. apply mixed_iff in M. destruct M as (i & j & I1 & I2 & K). exfalso. apply K, kind_same. rewrite (H i I1), (H j I2). reflexivity.
Qed.

(** Interactions that are all of HTTP (or none at all), written in an older version and loaded again. *)
Theorem C100_http_downgraded : forall w x semver lib v p, reads_versions semver -> v <> SV4 ->
  Forall (http_fits w x v) (vf_ints p) -> metadata_fits (vf_meta p) ->
  exists j p', v4_pact_to_json w x lib v p = Ok j /\ load_pact w x semver j = Ok (AHttp p') /\ hp_version p' = v /\
    hp_who p' = vf_who p /\ metadata_in_old w lib v (vf_meta p) (hp_meta p') /\ Forall2 (http_in_old w x v) (vf_ints p) (hp_ints p').
Proof.
  intros w x semver lib v p RV NV Fi Md.
  assert (Wr : v4_pact_to_json w x lib v p = http_pact_to_json w x lib v (v4_as_http w p)).
  { unfold v4_pact_to_json. rewrite (not_mixed (vf_ints p) KHttp).
    - assert ((match vf_ints p with [] => true | _ => false end) || has_kind KHttp (vf_ints p) = true) as ->; [|destruct v; try reflexivity; congruence].
      destruct (vf_ints p) as [|i l]; [reflexivity|]. apply orb_true_iff. right. apply has_kind_iff. exists i. split; [left; reflexivity|]. apply kind_http.
      apply Forall_inv in Fi. destruct Fi as (q & r & E & _). exists q, r. exact E.
    - intros i I1. apply kind_http. rewrite Forall_forall in Fi. destruct (Fi i I1) as (q & r & E & _). exists q, r. exact E. }
  assert (Hg : forall k v0 o, http_entry_kept w k v0 = Some o -> o = [(S_ "version", version_str SV3)] \/ exists m, v0 = JObj m /\ o = texts w m).
  { intros k v0 o E. unfold http_entry_kept in E. destruct (str_eqb k (S_ "pactSpecification")); [left; congruence|]. right. destruct v0; try discriminate. injection E as <-. eauto. }
  assert (OK : http_pact_ok w x v (v4_as_http w p)).
  { split; [|rewrite http_meta; apply (kept_ok w); [exact Hg|exact Md]]. unfold v4_as_http. cbn [hp_ints]. rewrite Forall_forall in *. intros h I1. apply in_flat_map in I1. destruct I1 as (i & I1 & I2).
    destruct (Fi i I1) as (q & r & E & So & Qo & Ro). unfold downgrade_http in I2. rewrite E in I2. destruct I2 as [<-|[]]. split; [exact So|]. split; assumption. }
  destruct (C98_file_roundtrip w x semver lib v _ RV NV OK) as (j & p' & W1 & L1 & (S1 & S2 & S3 & S4)).
  exists j, p'. split; [congruence|]. split; [exact L1|]. split; [exact S4|]. split; [exact S1|]. split.
  - rewrite http_meta in S3. eapply metadata_downgraded; [|exact Md|exact S3]. intros k j0 Nk. unfold http_entry_kept. destruct (str_eqb_spec k (S_ "pactSpecification")); [contradiction|reflexivity].
  - unfold v4_as_http in S2. cbn [hp_ints] in S2. clear -S2 Fi. revert S2. generalize (hp_ints p'). induction (vf_ints p) as [|i l IH]; intros out F; cbn [flat_map] in F; [inversion F; constructor|].
    pose proof (Forall_inv Fi) as (q & r & E & _). unfold downgrade_http in F at 1. rewrite E in F. cbn [app] in F. inversion F as [|? h' ? out' Hh Hl]; subst. constructor; [|apply IH; [exact (Forall_inv_tail Fi)|exact Hl]].
    destruct Hh as (H1 & H2 & H3 & H4 & H5). exists q, r. split; [exact E|]. auto.
Qed.

Lemma insert_new_keys : forall A k (v : A) m k', In k' (map fst (obj_insert k v m)) -> k' = k \/ In k' (map fst m).
Proof.
  intros A k v m k' H. change (In k' (keys (obj_insert k v m))) in H. destruct (obj_get k' (obj_insert k v m)) eqn:G; [|apply obj_get_none in G; contradiction].
  rewrite obj_insert_get in G. destruct (str_eqb_spec k' k) as [->|]; [left; reflexivity|]. right. apply obj_get_in in G. apply in_map_iff. exists (k', a). split; [reflexivity|exact G].
Qed.
Lemma insert_new_distinct : forall A k (v : A) m, NoDup (map fst m) -> obj_get k m = None -> NoDup (map fst (obj_insert k v m)).
Proof.
  intros A k v. induction m as [|[k' v'] m IH]; intros H N1; cbn [obj_insert]; [repeat constructor; intros []|].
  cbn [map fst] in H. inversion H as [|? ? H1 H2]; subst. cbn [obj_get] in N1. destruct (str_eqb_spec k k') as [->|Ne]; [discriminate|].
  destruct (str_compare k k'); cbn [map fst].
  - constructor; [|exact H2]. apply obj_get_none in N1. exact N1.
  - constructor; [|exact H]. cbn [In]. intros [E|I1]; [congruence|]. apply obj_get_none in N1. apply N1, I1.
  - constructor; [|apply IH; assumption]. intro I1. apply insert_new_keys in I1. destruct I1; [congruence|contradiction].
Qed.
Lemma add_type_distinct : forall m, distinct (msg_metadata m) -> distinct (add_content_type m).
Proof.
  intros m D. unfold add_content_type. destruct (body_content_type (msg_contents m)) as [t|]; [|exact D].
  unfold obj_has. destruct (obj_get (S_ "contentType") (msg_metadata m)) eqn:G; [exact D|]. apply insert_new_distinct; assumption.
Qed.
Lemma add_type_typed : forall m, typed_metadata m (add_content_type m).
Proof.
  intro m. unfold typed_metadata, add_content_type. rewrite entry_obj_get. unfold obj_has. destruct (obj_get (S_ "contentType") (msg_metadata m)) as [j|] eqn:G.
  - destruct (body_content_type (msg_contents m)); intro k; reflexivity.
  - destruct (msg_contents m) as [| | |bytes [t|] h]; cbn [body_content_type]; intro k; try reflexivity. rewrite !entry_obj_get, obj_insert_get. cbn [obj_get]. reflexivity.
Qed.
(** Asynchronous messages, written as V3 and loaded again. *)
Theorem C100_messages_downgraded : forall w x semver lib p, reads_versions semver -> vf_ints p <> [] ->
  Forall (message_fits w x) (vf_ints p) -> metadata_fits (vf_meta p) ->
  exists j p', v4_pact_to_json w x lib SV3 p = Ok j /\ load_pact w x semver j = Ok (AMsg p') /\ mf_version p' = SV3 /\
    mf_who p' = vf_who p /\ metadata_in_old w lib SV3 (vf_meta p) (mf_meta p') /\ Forall2 (message_in_old w x) (vf_ints p) (mf_msgs p').
Proof.
  intros w x semver lib p RV NE Fi Md.
  assert (Ka : forall i, In i (vf_ints p) -> kind_of i = KAsync).
  { intros i I1. apply kind_async. rewrite Forall_forall in Fi. destruct (Fi i I1) as (m & E & _). exists m. exact E. }
  assert (Wr : v4_pact_to_json w x lib SV3 p = message_pact_to_json w x lib SV3 (v4_as_message w p)).
  { unfold v4_pact_to_json. rewrite (not_mixed (vf_ints p) KAsync Ka).
    assert ((match vf_ints p with [] => true | _ => false end) || has_kind KHttp (vf_ints p) = false) as ->.
    { apply orb_false_iff. split; [destruct (vf_ints p); [congruence|reflexivity]|]. destruct (has_kind KHttp (vf_ints p)) eqn:Hk; [|reflexivity]. apply has_kind_iff in Hk. destruct Hk as (i & I1 & E). rewrite (Ka i I1) in E. discriminate. }
    assert (has_kind KAsync (vf_ints p) = true) as ->; [|reflexivity]. destruct (vf_ints p) as [|i l]; [congruence|]. apply has_kind_iff. exists i. split; [left; reflexivity|]. apply Ka. left. reflexivity. }
  assert (Each : forall i, In i (vf_ints p) -> exists m, f_payload i = FAsync m /\
    downgrade_message i = [mkOM (f_id i) (f_desc i) (f_states i) (mkMsg (msg_contents (fst m)) (add_content_type (fst m)) (msg_rules (fst m)), snd m)] /\
    distinct (add_content_type (fst m)) /\
    old_message_ok w x (mkOM (f_id i) (f_desc i) (f_states i) (mkMsg (msg_contents (fst m)) (add_content_type (fst m)) (msg_rules (fst m)), snd m))).
  { intros i I1. rewrite Forall_forall in Fi. destruct (Fi i I1) as (m & E & D & H). exists m. split; [exact E|].
    pose proof (add_type_distinct _ D) as D'. specialize (H _ D' (add_type_typed _)). split; [|split; assumption]. unfold downgrade_message. rewrite E.
    pose proof H as (_ & _ & _ & _ & _ & R). cbn [om_body fst msg_rules] in R. rewrite (rename_same w _ R). reflexivity. }
  assert (OK : message_file_ok w x (v4_as_message w p)).
  { split; [|rewrite message_meta; apply (kept_ok w); [|exact Md]].
    - unfold v4_as_message. cbn [mf_msgs]. rewrite Forall_forall. intros h I1. apply in_flat_map in I1. destruct I1 as (i & I1 & I2).
      destruct (Each i I1) as (m & _ & E & _ & H). rewrite E in I2. destruct I2 as [<-|[]]. exact H.
    - intros k v0 o E. right. unfold entry_kept in E. destruct v0; try discriminate. injection E as <-. eauto. }
  destruct (C99_message_file_roundtrip w x semver lib _ RV OK) as (j & p' & W1 & L1 & (S1 & S2 & S3 & S4)).
  exists j, p'. split; [congruence|]. split; [exact L1|]. split; [exact S4|]. split; [exact S1|]. split.
  - rewrite message_meta in S3. eapply metadata_downgraded; [|exact Md|exact S3]. reflexivity.
  - unfold v4_as_message in S2. cbn [mf_msgs] in S2. clear -S2 Each. revert S2. generalize (mf_msgs p'). induction (vf_ints p) as [|i l IH]; intros out F; cbn [flat_map] in F; [inversion F; constructor|].
    destruct (Each i (or_introl eq_refl)) as (m & E1 & E2 & D & _). rewrite E2 in F. cbn [app] in F. inversion F as [|? h' ? out' Hh Hl]; subst.
    constructor; [|apply IH; [intros i' I1; apply Each; right; exact I1|exact Hl]]. exists m, (add_content_type (fst m)). split; [exact E1|]. split; [exact D|]. split; [apply add_type_typed|exact Hh].
Qed.
