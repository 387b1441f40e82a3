(** C100: pacts written in the format of another version, and the choice of the format on loading. *)
From Coq Require Import Ascii String List Arith NArith ZArith Lia Bool Permutation Sorted.
From Verif Require Import Base PathExp Json Text TextProofs MatchingRules Matchers JsonCompare Headers Query QueryString ContentType Http Merge Expr Generators Base64 PactFile OldFile
  SpecQuery SpecRules SpecRulesV2 SpecGenerators SpecVerifier PropHeaders SpecPactFile SpecOldFile SpecConvert PropVerifier PropBroker2 PropStateChange QueryProofs
  PactFileProofs PactFileProofs2 PropPactFile OldFileProofs OldFileProofs2 PropOldFile.
Import ListNotations.
Open Scope N_scope.
Local Opaque show_N.

(** ** The version of a V4 file *)
Lemma metadata_key_not : forall k, metadata_key k <> S_ "pact-specification" /\ metadata_key k <> S_ "pact-rust".
Proof.
  intro k. unfold metadata_key. destruct (str_eqb_spec k (S_ "pact-specification")); [split; discriminate|].
  destruct (str_eqb_spec k (S_ "pact-rust")); [split; discriminate|]. split; assumption.
Qed.
Lemma v4_version : forall w semver lib p j, reads_versions semver -> json_get (S_ "metadata") j = Some (metadata_to_json lib p) ->
  determine_spec_version semver (parse_meta_data w j) = SV4.
Proof.
  intros w semver lib p j RV G. unfold metadata_to_json in G.
  set (o0 := obj_of_list _) in G.
  assert (N0 : forall k, (k = S_ "pact-specification" \/ k = S_ "pact-rust") -> obj_get k o0 = None).
  { clear G. intros k Hk. subst o0. rewrite of_list_get. induction (vf_meta p) as [|[k' v'] md IH]; [reflexivity|]. cbn [map last_entry fst snd]. rewrite IH.
    destruct (metadata_key_not k'). destruct (str_eqb_spec k (metadata_key k')) as [->|]; [|reflexivity]. destruct Hk; contradiction. }
  assert (S0 : StronglySorted str_lt (keys o0)) by (subst o0; apply of_list_sorted; constructor). clearbody o0.
  set (o1 := obj_insert (S_ "pactSpecification") _ o0) in G.
  assert (N1 : forall k, (k = S_ "pact-specification" \/ k = S_ "pact-rust") -> obj_get k o1 = None).
  { intros k Hk. subst o1. rewrite obj_insert_get, (N0 k Hk). destruct Hk as [-> | ->]; reflexivity. }
  assert (V1 : obj_get (S_ "pactSpecification") o1 = Some (JObj [(S_ "version", JStr (S_ "4.0"))])) by (subst o1; rewrite obj_insert_get, str_eqb_refl; reflexivity).
  assert (S1 : StronglySorted str_lt (keys o1)) by (subst o1; apply obj_insert_sorted, S0). clearbody o1.
  set (o2 := match obj_get (S_ "pactRust") o1 with Some (JObj m) => _ | Some _ => o1 | None => _ end) in G.
  assert (H2 : StronglySorted str_lt (keys o2) /\ forall k, k <> S_ "pactRust" -> obj_get k o2 = obj_get k o1).
  { subst o2. destruct (obj_get (S_ "pactRust") o1) as [[| | | | |m]|]; (split; [try apply obj_insert_sorted; exact S1|]);
      intros k Hk; rewrite ?obj_insert_get; destruct (str_eqb_spec k (S_ "pactRust")); try contradiction; reflexivity. }
  clearbody o2. destruct H2 as [S2 E2].
  set (o3 := match vf_plugins p with [] => o2 | _ :: _ => _ end) in G.
  assert (H3 : StronglySorted str_lt (keys o3) /\ forall k, k <> S_ "plugins" -> obj_get k o3 = obj_get k o2).
  { subst o3. destruct (vf_plugins p) as [|d l]; (split; [try apply obj_insert_sorted; exact S2|]); [reflexivity|].
    intros k Hk. rewrite obj_insert_get. destruct (str_eqb_spec k (S_ "plugins")); [contradiction|reflexivity]. }
  clearbody o3. destruct H3 as [S3 E3].
  assert (M1 : obj_get (S_ "pact-specification") o3 = None) by (rewrite E3, E2 by discriminate; apply N1; auto).
  assert (M2 : obj_get (S_ "pact-rust") o3 = None) by (rewrite E3, E2 by discriminate; apply N1; auto).
  pose proof (fun k => parsed_get w o3 j k G (sorted_nodup _ S3) M1 M2) as P.
  unfold determine_spec_version, obj_has. rewrite P, M1. cbn [option_map]. rewrite P, E3, E2, V1 by discriminate. cbn [option_map texts_of map fst snd text_or_shown obj_get].
  rewrite str_eqb_refl. destruct RV as (_ & _ & _ & _ & -> & _). reflexivity.
Qed.
(** Every V4 file that is written is loaded as one. *)
Lemma v4_loaded : forall w x semver lib p j p', reads_versions semver -> pact_to_json w x lib p = Ok j -> pact_from_json w x j = Ok p' -> load_pact w x semver j = Ok (AV4 p').
Proof.
  intros w x semver lib p j p' RV Wr Rd. unfold pact_to_json in Wr. destruct (collect _) as [l| |]; cbn [bind] in Wr; try discriminate. injection Wr as <-.
  set (o := obj_of_list _) in *. assert (G : json_get (S_ "metadata") (JObj o) = Some (metadata_to_json lib p)) by reflexivity.
  unfold load_pact. rewrite (v4_version w semver lib p _ RV G), Rd. reflexivity.
Qed.

(** ** Upgrading *)
Lemma sorted_map : forall A (f : A -> file_interaction) (desc : A -> str) l out, (forall a, f_desc (f a) = desc a) ->
  (forall a b, In a l -> In b l -> f a = f b -> a = b) -> sorted_stably (map f l) out -> exists l', out = map f l' /\ sorted_by desc l l'.
Proof.
  intros A f desc l out D Inj (P & S & F). destruct (Permutation_map_inv f l (Permutation_sym P)) as (l' & -> & P').
  exists l'. split; [reflexivity|]. split; [exact P'|]. split.
  - clear -S D. induction l' as [|a l' IH]; [constructor|]. cbn [map] in S. inversion S as [|? ? S1 S2]; subst. constructor; [apply IH, S1|].
    rewrite Forall_forall in *. intros b Ib. rewrite <- !D. apply S2, in_map, Ib.
  - intro d. specialize (F d). assert (Fm : forall m, filter (fun i => str_eqb (f_desc i) d) (map f m) = map f (filter (fun a => str_eqb (desc a) d) m)).
    { clear -D. induction m as [|a m IH]; [reflexivity|]. cbn [map filter]. rewrite D. destruct (str_eqb (desc a) d); cbn [map]; rewrite IH; reflexivity. }
    rewrite !Fm in F.
    assert (Sub : forall m, incl m l -> incl (filter (fun a => str_eqb (desc a) d) m) l) by (intros m H a Ha; apply filter_In in Ha; apply H, Ha).
    assert (Sl : incl l' l) by (intros a Ha; eapply Permutation_in; [apply Permutation_sym; exact P'|exact Ha]).
    pose proof (Sub l' Sl) as U1. pose proof (Sub l (incl_refl l)) as U2. revert F U1 U2. generalize (filter (fun a => str_eqb (desc a) d) l') (filter (fun a => str_eqb (desc a) d) l).
    clear -Inj. induction l0 as [|a m IH]; intros [|b m'] E U1 U2; cbn [map] in E; try discriminate; [reflexivity|]. injection E as E1 E2.
    rewrite (Inj a b) by (try (apply U1; left; reflexivity); try (apply U2; left; reflexivity); assumption). f_equal. apply IH; [assumption| |]; intros c Hc; [apply U1|apply U2]; right; exact Hc.
Qed.
Lemma rename_same : forall w m, rules_ok w m -> rename_body m = m.
Proof.
  intros w m [_ H]. unfold rename_body. rewrite <- (map_id m) at 2. apply map_ext_in. intros [n c] I1. rewrite Forall_forall in H. destruct (H _ I1) as (E & _). cbn [fst snd] in *.
  destruct (cat_eqb n CBody) eqn:En; [|reflexivity]. assert (n = CBody) as -> by (destruct n; try discriminate; reflexivity). destruct c as [n r]. cbn [cat_name cat_rules] in *. subst n. reflexivity.
Qed.
Lemma upgrade_metadata_ok : forall md, metadata_fits_v4 md -> distinct (upgrade_metadata md) /\
  (forall k, In k [S_ "plugins"; S_ "pact-specification"; S_ "pact-rust"] -> entry k (upgrade_metadata md) = None) /\
  forall k, entry k (upgrade_metadata md) = option_map texts_to_json (entry k md).
Proof.
  intros md [(D & _ & N1 & N2) N3]. assert (E : forall k, entry k (upgrade_metadata md) = option_map texts_to_json (entry k md)).
  { intro k. rewrite !entry_obj_get. unfold upgrade_metadata. rewrite (obj_get_map _ _ texts_to_json). reflexivity. }
  split; [unfold distinct, upgrade_metadata; rewrite map_map; exact D|]. split; [|exact E].
  intros k [<-|[<-|[<-|[]]]]; rewrite E; [rewrite N3|rewrite N1|rewrite N2]; reflexivity.
Qed.
Lemma texts_entry : forall m k, distinct m -> entry k (match texts_to_json m with JObj o => o | _ => [] end) = option_map JStr (entry k m).
Proof. intros m k D. rewrite !entry_obj_get. cbn [texts_to_json]. apply of_list_mapped, D. Qed.
Lemma metadata_upgraded : forall lib md md', metadata_fits_v4 md -> same_metadata lib (upgrade_metadata md) md' -> metadata_in_v4 lib md md'.
Proof.
  intros lib md md' H (V & R & Oth). destruct (upgrade_metadata_ok md H) as (_ & _ & E). destruct H as [(D & Di & _ & _) _]. rewrite Forall_forall in Di.
  assert (Dm : forall k o, entry k md = Some o -> distinct o) by (intros k o G; rewrite entry_obj_get in G; apply obj_get_in in G; exact (Di _ G)).
  split; [exact V|]. split.
  - rewrite E in R. destruct (entry (S_ "pactRust") md) as [o|] eqn:Eo; cbn [option_map] in R.
    + destruct R as (m' & R1 & R2 & R3). exists m'. split; [exact R1|]. split; [exact R2|]. intros k Nk. rewrite (R3 k Nk). exact (texts_entry o k (Dm _ _ Eo)).
    + eexists. split; [exact R|]. split; [reflexivity|]. intros k Nk. rewrite entry_obj_get. cbn [obj_get]. destruct (str_eqb_spec k (S_ "models")); [contradiction|reflexivity].
  - intros k K1 K2. specialize (Oth k K1 K2). rewrite E in Oth. destruct (entry k md) as [o|] eqn:Eo; cbn [option_map] in Oth; [|exact Oth].
    eexists. split; [exact Oth|]. intro k'. exact (texts_entry o k' (Dm _ _ Eo)).
Qed.
Lemma nothing_new_back : forall w x i i', f_key i = None -> f_extra i = extra_default -> same_interaction w x i i' -> nothing_new i'.
Proof.
  intros w x i i' K E (S1 & S2 & _ & _ & S5 & S6 & S7 & S8 & S9 & _). rewrite E in *. rewrite K in S2. split; [exact S1|]. split; [exact S2|]. split; [exact S5|]. split; [exact S6|]. split; [|split].
  - intro k. destruct (entry k (x_comments (f_extra i'))) as [j|] eqn:G; [|reflexivity]. apply S7 in G. destruct G as [G _]. discriminate.
  - intro k. specialize (S8 k). destruct (entry k (x_plugin (f_extra i'))); [contradiction|reflexivity].
  - exact S9.
Qed.
(** A pact of requests and responses, written as V4 and loaded again. *)
Theorem C100_http_as_v4 : forall w x semver lib p, reads_versions semver -> (forall f, show_float w f <> []) ->
  Forall (http_fits_v4 w x) (hp_ints p) -> metadata_fits_v4 (hp_meta p) ->
  exists j p' l, http_pact_to_json w x lib SV4 p = Ok j /\ load_pact w x semver j = Ok (AV4 p') /\
    vf_who p' = hp_who p /\ metadata_in_v4 lib (hp_meta p) (vf_meta p') /\ vf_plugins p' = [] /\
    sorted_by h_desc (hp_ints p) l /\ Forall2 (http_in_v4 w x) l (vf_ints p').
Proof.
  intros w x semver lib p RV SF Fi Md. destruct (upgrade_metadata_ok _ Md) as (D & Nk & _).
  assert (OK : pact_ok w x (http_as_v4 p)).
  { unfold pact_ok, http_as_v4. cbn [vf_ints vf_meta vf_plugins]. split; [|split; [exact D|split; [exact Nk|constructor]]].
    rewrite Forall_forall in *. intros i I1. apply in_map_iff in I1. destruct I1 as (h & <- & I1). destruct (Fi h I1) as (A1 & A2 & A3).
    unfold interaction_ok, upgrade_http. cbn [f_states f_extra f_payload]. split; [exact A1|]. split; [constructor|]. split; [constructor|]. split; [constructor|]. split; assumption. }
  destruct (C97_file_roundtrip w x lib _ SF OK) as (j & p' & Wr & Rd & (S1 & S2 & S3 & l0 & S4 & S5)).
  unfold http_as_v4 in S1, S2, S3, S4. cbn [vf_who vf_meta vf_ints vf_plugins] in S1, S2, S3, S4.
  destruct (sorted_map _ upgrade_http h_desc (hp_ints p) l0 (fun _ => eq_refl)) with (2 := S4) as (l & -> & Sl).
  { intros [] [] _ _ E. injection E as -> -> -> -> ->. reflexivity. }
  exists j, p', l. split; [exact Wr|]. split; [exact (v4_loaded _ _ _ _ _ _ _ RV Wr Rd)|]. split; [exact S1|].
  split; [exact (metadata_upgraded _ _ _ Md S2)|]. split; [inversion S3; reflexivity|]. split; [exact Sl|].
  clear -S5. revert S5. generalize (vf_ints p'). induction l as [|h l IH]; intros out F; cbn [map] in F; inversion F as [|? i' ? out' Hi Hl]; subst; constructor; [|apply IH, Hl].
  pose proof (fun a b => nothing_new_back _ _ _ _ a b Hi) as Nn. specialize (Nn eq_refl eq_refl). destruct Hi as (_ & _ & Hd & Hs & _ & _ & _ & _ & _ & Hp). unfold upgrade_http in Hd, Hs, Hp. cbn [f_desc f_states f_payload] in *.
  split; [exact Nn|]. split; [exact Hd|]. split; [exact Hs|]. destruct (f_payload i') as [q r| |]; cbn [same_payload] in Hp; try contradiction. exists q, r. split; [reflexivity|exact Hp].
Qed.
(** A pact of messages, written as V4 and loaded again. *)
Theorem C100_messages_as_v4 : forall w x semver lib p, reads_versions semver -> (forall f, show_float w f <> []) ->
  Forall (message_fits_v4 w x) (mf_msgs p) -> metadata_fits_v4 (mf_meta p) ->
  exists j p' l, message_pact_to_json w x lib SV4 p = Ok j /\ load_pact w x semver j = Ok (AV4 p') /\
    vf_who p' = mf_who p /\ metadata_in_v4 lib (mf_meta p) (vf_meta p') /\ vf_plugins p' = [] /\
    sorted_by om_desc (mf_msgs p) l /\ Forall2 (message_in_v4 w x) l (vf_ints p').
Proof.
  intros w x semver lib p RV SF Fi Md. destruct (upgrade_metadata_ok _ Md) as (D & Nk & _). rewrite Forall_forall in Fi.
  assert (Up : forall m, In m (mf_msgs p) -> upgrade_message m = mkFI (om_id m) None (om_desc m) (om_states m) (FAsync (om_body m)) extra_default).
  { intros m I1. destruct (Fi m I1) as (_ & _ & _ & R & _). unfold upgrade_message. rewrite (rename_same w _ R). destruct m as [id d s [[b md rs] g]]. reflexivity. }
  assert (OK : pact_ok w x (message_as_v4 p)).
  { unfold pact_ok, message_as_v4. cbn [vf_ints vf_meta vf_plugins]. split; [|split; [exact D|split; [exact Nk|constructor]]].
    rewrite Forall_forall. intros i I1. apply in_map_iff in I1. destruct I1 as (h & <- & I1). destruct (Fi h I1) as (A1 & A2). rewrite (Up h I1).
    unfold interaction_ok. cbn [f_states f_extra f_payload]. split; [exact A1|]. split; [constructor|]. split; [constructor|]. split; [constructor|]. exact A2. }
  destruct (C97_file_roundtrip w x lib _ SF OK) as (j & p' & Wr & Rd & (S1 & S2 & S3 & l0 & S4 & S5)).
  unfold message_as_v4 in S1, S2, S3, S4. cbn [vf_who vf_meta vf_ints vf_plugins] in S1, S2, S3, S4.
  destruct (sorted_map _ upgrade_message om_desc (mf_msgs p) l0 (fun _ => eq_refl)) with (2 := S4) as (l & -> & Sl).
  { intros a b I1 I2 E. rewrite (Up a I1), (Up b I2) in E. destruct a, b. injection E as -> -> -> ->. reflexivity. }
  exists j, p', l. split; [exact Wr|]. split; [exact (v4_loaded _ _ _ _ _ _ _ RV Wr Rd)|]. split; [exact S1|].
  split; [exact (metadata_upgraded _ _ _ Md S2)|]. split; [inversion S3; reflexivity|]. split; [exact Sl|].
  assert (Il : incl l (mf_msgs p)) by (intros a Ia; eapply Permutation_in; [apply Permutation_sym, (proj1 Sl)|exact Ia]).
  clear -S5 Il Up. revert S5 Il. generalize (vf_ints p'). induction l as [|h l IH]; intros out F Il; cbn [map] in F; inversion F as [|? i' ? out' Hi Hl]; subst; constructor; [|apply IH; [exact Hl|intros a Ia; apply Il; right; exact Ia]].
  rewrite (Up h (Il h (or_introl eq_refl))) in Hi.
  pose proof (fun a b => nothing_new_back _ _ _ _ a b Hi) as Nn. specialize (Nn eq_refl eq_refl). destruct Hi as (_ & _ & Hd & Hs & _ & _ & _ & _ & _ & Hp). cbn [f_desc f_states f_payload] in *.
  split; [exact Nn|]. split; [exact Hd|]. split; [exact Hs|]. destruct (f_payload i') as [|m'|]; cbn [same_payload] in Hp; try contradiction. exists m'. split; [reflexivity|exact Hp].
Qed.
(** A V4 pact. *)
Theorem C100_v4_as_v4 : forall w x semver lib p, reads_versions semver -> (forall f, show_float w f <> []) -> pact_ok w x p ->
  exists j p', v4_pact_to_json w x lib SV4 p = Ok j /\ load_pact w x semver j = Ok (AV4 p') /\ same_pact w x lib p p'.
Proof.
  intros w x semver lib p RV SF OK. destruct (C97_file_roundtrip w x lib _ SF OK) as (j & p' & Wr & Rd & S1).
  exists j, p'. split; [exact Wr|]. split; [exact (v4_loaded _ _ _ _ _ _ _ RV Wr Rd)|exact S1].
Qed.
