(** Writing and reading the metadata and the messages of a V1 to V3 pact file. *)
From Coq Require Import Ascii String List Arith NArith ZArith Lia Bool Permutation Sorted.
From Verif Require Import Base PathExp Json Text TextProofs MatchingRules Matchers JsonCompare Headers Query QueryString ContentType Http Merge Expr Generators Base64 PactFile OldFile
  SpecQuery SpecRules SpecRulesV2 SpecGenerators SpecVerifier PropHeaders SpecPactFile SpecOldFile QueryProofs HeaderProofs2 PropQuery RulesV2 PropVerifier PropBroker2 PropStateChange
  PactFileProofs PactFileProofs2 PropPactFile OldFileProofs.
Import ListNotations.
Open Scope N_scope.
Local Opaque show_N.

Lemma last_entry_nodup_any : forall A k (m : list (str * A)), NoDup (keys m) -> last_entry k m = obj_get k m.
Proof.
  intros A k. induction m as [|[k' v] m IH]; intro H; [reflexivity|]. unfold keys in H. cbn [map fst] in H. inversion H as [|? ? H1 H2]; subst.
  cbn [last_entry obj_get]. rewrite (IH H2). destruct (str_eqb_spec k k') as [->|Ne]; [|destruct (obj_get k m); reflexivity].
  destruct (obj_get k' m) as [u|] eqn:G; [|reflexivity]. exfalso. apply H1. apply obj_get_in in G. apply in_map_iff. exists (k', u). split; [reflexivity|exact G].
Qed.
Section Meta.
Variable w : world.
Definition texts_of (j : json) : list (str * str) :=
  match j with JObj m => map (fun kv => (fst kv, text_or_shown w (snd kv))) m | _ => [] end.
Lemma texts_back : forall m k, distinct m -> obj_get k (texts_of (texts_to_json m)) = obj_get k m.
Proof.
  intros m k D. unfold texts_of, texts_to_json. rewrite (obj_get_map json str (text_or_shown w)).
  rewrite (of_list_mapped _ JStr m k D). destruct (obj_get k m); reflexivity.
Qed.
Lemma parsed_get : forall O j k, json_get (S_ "metadata") j = Some (JObj O) -> NoDup (keys O) ->
  obj_get (S_ "pact-specification") O = None -> obj_get (S_ "pact-rust") O = None ->
  obj_get k (parse_meta_data w j) = option_map texts_of (obj_get k O).
Proof.
  intros O j k G ND N1 N2. unfold parse_meta_data. rewrite G.
  replace (map _ O) with (map (fun kv : str * json => (fst kv, texts_of (snd kv))) O).
  - rewrite of_list_get, last_entry_nodup_any; [|unfold keys; rewrite map_map; exact ND]. rewrite (obj_get_map json _ texts_of). destruct (obj_get k O); reflexivity.
  - apply map_ext_in. intros [k' v'] I1. cbn [fst snd]. f_equal. unfold metadata_key.
    destruct (str_eqb_spec k' (S_ "pact-specification")) as [->|]; [rewrite obj_get_none in N1; destruct N1; apply (in_map fst _ _ I1)|].
    destruct (str_eqb_spec k' (S_ "pact-rust")) as [->|]; [rewrite obj_get_none in N2; destruct N2; apply (in_map fst _ _ I1)|]. reflexivity.
Qed.

Lemma old_metadata_back : forall lib v md j, old_metadata_ok md -> json_get (S_ "metadata") j = Some (old_metadata_to_json lib v md) ->
  same_old_metadata lib v md (parse_meta_data w j) /\ obj_get (S_ "pact-specification") (parse_meta_data w j) = None.
Proof.
  intros lib v md j (D & Di & N1 & N2) G. unfold old_metadata_to_json in G.
  replace (map _ md) with (map (fun kv : str * list (str * str) => (fst kv, texts_to_json (snd kv))) md) in G.
  2:{ apply map_ext_in. intros [k' v'] I1. cbn [fst snd]. f_equal. unfold metadata_key. rewrite entry_obj_get, obj_get_none in N1, N2.
      destruct (str_eqb_spec k' (S_ "pact-specification")) as [->|]; [destruct N1; apply (in_map fst _ _ I1)|].
      destruct (str_eqb_spec k' (S_ "pact-rust")) as [->|]; [destruct N2; apply (in_map fst _ _ I1)|]. reflexivity. }
  set (o0 := obj_of_list _) in G.
  assert (E0 : forall k, obj_get k o0 = option_map texts_to_json (obj_get k md)) by (intro k; subst o0; apply of_list_mapped, D).
  assert (S0 : StronglySorted str_lt (keys o0)) by (subst o0; apply of_list_sorted; constructor). clearbody o0.
  rewrite obj_insert_get in G. change (str_eqb (S_ "pactRust") (S_ "pactSpecification")) with false in G. cbv iota in G. rewrite E0 in G.
  set (o1 := obj_insert (S_ "pactSpecification") _ o0) in G.
  assert (E1 : forall k, obj_get k o1 = if str_eqb k (S_ "pactSpecification") then Some (JObj [(S_ "version", JStr (version_str v))]) else option_map texts_to_json (obj_get k md)).
  { intro k. subst o1. rewrite obj_insert_get, E0. reflexivity. }
  assert (S1 : StronglySorted str_lt (keys o1)) by (subst o1; apply obj_insert_sorted, S0). clearbody o1.
  assert (exists o2 mr, json_get (S_ "metadata") j = Some (JObj o2) /\ StronglySorted str_lt (keys o2) /\
    (forall k, obj_get k o2 = if str_eqb k (S_ "pactRust") then Some (JObj mr) else obj_get k o1) /\
    (forall k, obj_get k (texts_of (JObj mr)) = if str_eqb k (S_ "models") then Some lib
       else match obj_get (S_ "pactRust") md with Some o => obj_get k o | None => None end)) as (o2 & mr & G2 & S2 & E2 & Em).
  { destruct (obj_get (S_ "pactRust") md) as [mr|] eqn:P; cbn [option_map] in G.
    - unfold texts_to_json in G. eexists _, _. split; [exact G|]. split; [apply obj_insert_sorted, S1|]. split; [intro k; apply obj_insert_get|].
      intro k. cbn [texts_of]. rewrite (obj_get_map json str (text_or_shown w)), obj_insert_get. destruct (str_eqb k (S_ "models")); [reflexivity|].
      assert (Dm : distinct mr) by (rewrite Forall_forall in Di; apply obj_get_in in P; exact (Di _ P)).
      pose proof (texts_back mr k Dm) as T. unfold texts_of, texts_to_json in T. rewrite (obj_get_map json str (text_or_shown w)) in T. exact T.
    - eexists _, _. split; [exact G|]. split; [apply obj_insert_sorted, S1|]. split; [intro k; apply obj_insert_get|].
      intro k. cbn [texts_of map fst snd text_or_shown obj_get]. destruct (str_eqb k (S_ "models")); reflexivity. }
  clear G. rewrite entry_obj_get in N1, N2.
  assert (M1 : obj_get (S_ "pact-specification") o2 = None) by (rewrite E2, E1; keys_decide; rewrite N1; reflexivity).
  assert (M2 : obj_get (S_ "pact-rust") o2 = None) by (rewrite E2, E1; keys_decide; rewrite N2; reflexivity).
  pose proof (fun k => parsed_get o2 j k G2 (sorted_nodup _ S2) M1 M2) as P. split; [|rewrite P, M1; reflexivity].
  unfold same_old_metadata. rewrite !entry_obj_get. split; [|split].
  - rewrite P, E2, E1. keys_decide. reflexivity.
  - exists (texts_of (JObj mr)). rewrite P, E2. keys_decide. split; [reflexivity|]. rewrite Em. keys_decide. split; [reflexivity|].
    intros k Nk. rewrite Em. destruct (str_eqb_spec k (S_ "models")); [contradiction|reflexivity].
  - intros k K1 K2. rewrite P, E2, E1. destruct (str_eqb_spec k (S_ "pactRust")); [contradiction|]. destruct (str_eqb_spec k (S_ "pactSpecification")); [contradiction|].
    destruct (obj_get k md) as [m|] eqn:Gk; [|exact I]. cbn [option_map same_option]. intro k'. rewrite !entry_obj_get. symmetry. apply texts_back.
    rewrite Forall_forall in Di. apply obj_get_in in Gk. exact (Di _ Gk).
Qed.
Lemma version_back : forall semver lib v md md', reads_versions semver -> same_old_metadata lib v md md' ->
  obj_get (S_ "pact-specification") md' = None -> determine_spec_version semver md' = v.
Proof.
  intros semver lib v md md' (R1 & R2 & R3 & R4 & R5 & R6) (E & _) N1. unfold determine_spec_version. unfold obj_has. rewrite N1. rewrite entry_obj_get in E. rewrite E.
  cbn [obj_get]. rewrite str_eqb_refl. destruct v; cbn [version_str]; rewrite ?R1, ?R2, ?R3, ?R4, ?R5, ?R6; reflexivity.
Qed.
End Meta.

Section Messages.
Variable w : world.
Variable x : externals.
Definition declared_in (md : list (str * json)) : option content_type :=
  match type_entry md with Some v => parse_mime x (json_to_string w v) | None => None end.
Lemma type_key_iff : forall k, type_key k = true <-> is_type_entry k.
Proof.
  intro k. unfold type_key, is_type_entry. cbv zeta. rewrite orb_true_iff, !str_eqb_eq. reflexivity.
Qed.
Definition one_type (md : list (str * json)) : Prop :=
  forall k k' v v', In (k, v) md -> In (k', v') md -> is_type_entry k -> is_type_entry k' -> k = k'.
Lemma declared_spec : forall md, distinct md -> one_type md -> declares w x md (declared_in md) /\ forall t, declares w x md t -> t = declared_in md.
Proof.
  intros md D U. unfold declared_in, type_entry. destruct (find (fun kv => type_key (fst kv)) md) as [[k v]|] eqn:F; cbn [option_map snd].
  - destruct (find_get _ _ _ _ _ F) as [G Fk]. apply type_key_iff in Fk. pose proof (obj_get_in _ _ _ _ G) as I1. split; [left; exists k, v; auto|].
    intros t [(k' & v' & I2 & T2 & ->)|[N1 _]]; [|destruct (N1 k v I1 Fk)]. pose proof (U k k' v v' I1 I2 Fk T2). subst k'.
    pose proof (obj_get_nodup _ _ _ _ D I2). congruence.
  - assert (N1 : forall k v, In (k, v) md -> ~ is_type_entry k).
    { intros k v I1 T. pose proof (find_none _ _ F _ I1) as H. cbn [fst] in H. apply type_key_iff in T. congruence. }
    split; [right; split; [exact N1|reflexivity]|]. intros t [(k & v & I1 & T & _)|[_ ->]]; [destruct (N1 k v I1 T)|reflexivity].
Qed.
Lemma last_message_body : forall k name md rs b, (forall k v, In (k, v) md -> is_type_entry k -> exists t, parse_mime x (json_to_string w v) = Some t /\ parse_mime x (ct_show t) = Some t) ->
  last_entry k (message_body_written x name (message_content_type w x (mkMsg b md rs)) b) = if str_eqb k name then in_file x is_binary (declared_in md) b else None.
Proof.
  intros k name md rs b H. destruct b as [| | |bytes own hint]; cbn [message_body_written old_body_written in_file]; rewrite ?last_one; try reflexivity; [destruct (str_eqb k name); reflexivity|].
  assert (message_content_type w x (mkMsg (BPresent bytes own hint) md rs) = old_type x (declared_in md) bytes own) as ->; [|reflexivity].
  unfold message_content_type, old_type, written_type, declared_in. cbn [msg_contents msg_metadata body_content_type]. destruct own as [t|]; [reflexivity|].
  unfold type_entry. destruct (find (fun kv => type_key (fst kv)) md) as [[k' v]|] eqn:F; cbn [option_map snd]; [|reflexivity].
  destruct (find_get _ _ _ _ _ F) as [G Fk]. apply type_key_iff in Fk. destruct (H k' v (obj_get_in _ _ _ _ G) Fk) as (t & -> & _). reflexivity.
Qed.
Lemma old_message_back : forall m, old_message_ok w x m -> exists j, old_message_to_json w x SV3 m = Ok j /\
  forall index, exists m', old_message_from_json w x SV3 index j = Ok m' /\ same_old_message w x m m'.
Proof.
  intros [id desc states [[b md rs] g]]. unfold old_message_ok, old_message_to_json. cbn [om_body om_states om_desc fst snd msg_metadata msg_contents msg_rules].
  intros (So & D & U & Ty & Bo & Ru). destruct (declared_spec md D U) as [Dd Du]. specialize (Bo _ Dd).
  destruct (rules_back w _ Ru) as (l & E & Rn & Rr). unfold old_rules_written, newer. rewrite E. cbn [bind]. eexists. split; [reflexivity|]. intro index.
  set (j := JObj _).
  assert (Sn : forall k, last_entry k (match states with [] => [] | p :: l0 => [(S_ "providerStates", JArr (map state_to_json (p :: l0)))] end) =
    if str_eqb k (S_ "providerStates") then (match states with [] => None | _ => Some (JArr (map state_to_json states)) end) else None).
  { intro k. destruct states; [destruct (str_eqb k (S_ "providerStates")); reflexivity|apply last_one]. }
  Ltac field Sn Rn := match goal with j := _ |- _ => subst j end; looked; rewrite ?last_message_body, ?last_old_generators, ?Sn, ?Rn by (assumption || discriminate); keys_decide.
  assert (G1 : json_get (S_ "description") j = Some (JStr desc)) by (field Sn Rn; reflexivity).
  assert (G2 : json_get (S_ "metadata") j = Some (JObj (obj_of_list md))) by (field Sn Rn; reflexivity).
  assert (G3 : json_get (S_ "metaData") j = None) by (field Sn Rn; reflexivity).
  assert (G4 : json_get (S_ "_id") j = None) by (field Sn Rn; reflexivity).
  assert (G5 : json_get (S_ "matchingRules") j = last_entry (S_ "matchingRules") l).
  { field Sn Rn. destruct (last_entry (S_ "matchingRules") l); reflexivity. }
  assert (G6 : json_get (S_ "contents") j = in_file x is_binary (declared_in md) b) by (field Sn Rn; destruct (in_file _ _ _ _); reflexivity).
  assert (G7 : json_get (S_ "providerStates") j = match states with [] => None | _ => Some (JArr (map state_to_json states)) end) by (field Sn Rn; destruct states; reflexivity).
  assert (G8 : json_get (S_ "providerState") j = None) by (field Sn Rn; reflexivity).
  assert (G9 : json_get (S_ "provider_state") j = None) by (field Sn Rn; reflexivity).
  clearbody j. unfold old_message_from_json. cbn [is_v3]. rewrite G3, G2. cbn [Http.or_else].
  assert (Te : type_entry (obj_of_list md) = type_entry md).
  { unfold type_entry. f_equal. apply find_unique.
    - intro k. rewrite of_list_get. apply last_entry_nodup, D.
    - intros k k' v v' I1 I2 F1 F2. apply type_key_iff in F1. apply type_key_iff in F2. exact (U k k' v v' I1 I2 F1 F2). }
  rewrite Te. fold (declared_in md).
  assert (exists b', match declared_in md with
          | Some ct => bind (old_body_from_json w x j (S_ "contents") (Some [(S_ "content-type", [ct_show ct])])) (fun b => Ok (set_content_type b ct))
          | None => old_body_from_json w x j (S_ "contents") None
          end = Ok b' /\ old_contents_back w x (declared_in md) b b') as (b' & -> & Bb).
  { destruct (declared_in md) as [ct|] eqn:Dc.
    - assert (declared_type w x (Some [(S_ "content-type", [ct_show ct])]) = Ok (Some ct)) as Dt.
      { cbn [declared_type]. unfold find_header. cbn [find fst snd]. rewrite str_eqb_refl. cbv iota. cbn [snd].
        unfold declared_in, type_entry in Dc. destruct (find (fun kv => type_key (fst kv)) md) as [[k v]|] eqn:F; cbn [option_map snd] in Dc; [|discriminate].
        destruct (find_get _ _ _ _ _ F) as [G Fk]. apply type_key_iff in Fk. destruct (Ty k v (obj_get_in _ _ _ _ G) Fk) as (t & T1 & T2). rewrite Dc in T1. assert (t = ct) as -> by congruence. rewrite T2. reflexivity. }
      destruct (old_body_reads w x is_binary _ _ b j (S_ "contents") Dt Bo G6) as (b0 & -> & B0). cbn [bind]. eexists. split; [reflexivity|].
      exists b0. split; [exact B0|]. destruct b0; reflexivity.
    - destruct (old_body_reads w x is_binary None None b j (S_ "contents") eq_refl Bo G6) as (b0 & -> & B0). eexists. split; [reflexivity|]. exists b0. split; [exact B0|reflexivity]. }
  cbn [bind]. unfold old_rules_read. replace (Http.or_else (json_get (S_ "matchingRules") j) None) with (json_get (S_ "matchingRules") j) by (destruct (json_get (S_ "matchingRules") j); reflexivity).
  destruct (Rr j G5) as (m' & Er & Sm). unfold rules_read in Er. rewrite Er. cbn [bind]. eexists. split; [reflexivity|].
  unfold same_old_message. cbn [om_body om_states om_desc om_id fst snd msg_metadata msg_contents msg_rules]. unfold string_at, described. rewrite G4, G1. cbn [option_map text_or_shown].
  repeat (match goal with |- _ /\ _ => split end); try reflexivity; try assumption.
  - unfold states_from_json. rewrite G7, G8, G9. destruct states as [|s l']; [constructor|]. apply states_back, So.
  - apply of_list_same, D.
  - intros t Ht. rewrite (Du t Ht). exact Bb.
Qed.
End Messages.
