(** C114: V3 messages, the version of a file, whole files. *)
From Coq Require Import Ascii String List Arith NArith ZArith Lia Bool.
From Verif Require Import Base PathExp Json Text MatchingRules Matchers JsonCompare Headers Query QueryString ContentType SpecQuery Http QueryProofs Merge Generators Base64 PactFile PactFileProofs OldFile PropBroker2
  SpecVerifier PropPactFile2 PropOldFile2 PropPattern3 SpecReading PropReading.
Import ListNotations.
Open Scope N_scope.
Local Opaque show_N given reads_states.

Lemma type_key_iff : forall k, type_key k = true <-> names_type k.
Proof. intro k. unfold type_key, names_type. rewrite orb_true_iff, !str_eqb_eq. reflexivity. Qed.
Lemma type_entry_in : forall md, type_in md (type_entry md).
Proof.
  intro md. unfold type_entry. induction md as [|[k v] md IH]; [constructor|]. cbn [find fst]. destruct (type_key k) eqn:E; cbn [option_map snd].
  - apply ti_here, type_key_iff, E.
  - apply ti_later; [|exact IH]. intro N. apply type_key_iff in N. congruence.
Qed.
Lemma last_get : forall A k (l : list (str * A)), NoDup (keys l) -> last_entry k l = obj_get k l.
Proof.
  intros A k l ND. destruct (obj_get k l) as [v|] eqn:G.
  - apply PropPattern.last_entry_nodup; [exact ND | apply obj_get_in, G].
  - induction l as [|[k1 v1] l IH]; [reflexivity|]. cbn [obj_get fst snd last_entry] in *. destruct (str_eqb k k1) eqn:E; [discriminate|]. inversion ND; subst. rewrite (IH H2 G). reflexivity.
Qed.
Section Reading.
Variable w : world.
Variable x : externals.
Theorem C114_old_message : forall v n j m, old_message_from_json w x v n j = Ok m -> v = SV3 /\ reads_old_message w x n j m.
Proof.
  intros v n j m H. unfold old_message_from_json in H. destruct v; try discriminate. cbn [is_v3] in H. split; [reflexivity|]. cbv zeta in H.
  set (md := match Http.or_else (json_get (S_ "metaData") j) (json_get (S_ "metadata") j) with Some (JObj m) => m | _ => [] end) in *.
  match type of H with bind ?a _ = _ => destruct a as [b| |] eqn:B; try discriminate end. cbn [bind] in H.
  destruct (old_rules_read w None j) as [rs| |] eqn:R; try discriminate. cbn [bind] in H. apply ok_inj in H. subst m.
  unfold reads_old_message. cbn [om_desc om_id om_states om_body fst snd msg_metadata msg_rules msg_contents]. repeat (apply conj).
  - apply given_get.
  - apply given_get.
  - apply C114_states.
  - reflexivity.
  - intros v F. apply field_get in F. unfold md. rewrite F. cbn [Http.or_else]. destruct v; reflexivity.
  - intro L. apply left_get in L. unfold md. rewrite L. cbn [Http.or_else]. apply given_as. destruct (json_get (S_ "metadata") j) as [[]|]; reflexivity.
  - intro L. apply left_get in L. unfold old_rules_read in R. rewrite L in R. cbn in R. congruence.
  - exists (type_entry md). split; [apply type_entry_in|].
    destruct (match type_entry md with Some t => parse_mime x (json_to_string w t) | None => None end) as [ct|].
    + destruct (old_body_from_json w x j (S_ "contents") (Some [(S_ "content-type", [ct_show ct])])) as [b0| |] eqn:B0; try discriminate. cbn [bind] in B. apply ok_inj in B.
      exists b0. split; [apply C114_old_body, B0|]. rewrite B. destruct b0; reflexivity.
    + apply C114_old_body, B.
Qed.
(** ** Versions *)
Variable semver : str -> option (N * N).
Notation version_of j := (determine_spec_version semver (parse_meta_data w j)).
Theorem C114_no_version : forall j, (forall v, ~ says_version j "pactSpecification" v) -> (forall v, ~ says_version j "pact-specification" v) ->
  (forall o, field_is "metadata" j (JObj o) -> NoDup (keys o)) ->
  version_of j = SV3.
Proof.
  intros j N1 N2 ND. unfold determine_spec_version, parse_meta_data.
  destruct (json_get (S_ "metadata") j) as [md|] eqn:M; [|reflexivity]. destruct md as [| | | | |o]; try reflexivity.
  set (f := fun kv : str * json => (metadata_key (fst kv), match snd kv with JObj m => map (fun kv => (fst kv, text_or_shown w (snd kv))) m | _ => [] end)).
  set (md := obj_of_list (map f o)).
  assert (forall name spec t, obj_get (S_ name) md = Some spec -> (S_ name = S_ "pactSpecification" \/ S_ name = S_ "pact-specification") -> obj_get (S_ "version") spec = Some t -> False) as NO.
  { intros name spec t G NM V. apply obj_get_in in G. unfold md in G.
    assert (In (S_ name, spec) (map f o)) as J.
    { revert G. generalize (map f o). intro l. unfold obj_of_list. assert (forall acc, In (S_ name, spec) (fold_left (fun acc kv => obj_insert (fst kv) (snd kv) acc) l acc) -> In (S_ name, spec) l \/ In (S_ name, spec) acc) as Z.
      { induction l as [|[k v] l IH]; intros acc J; [right; exact J|]. cbn [fold_left fst snd] in J. apply IH in J as [J|J]; [left; right; exact J|].
        assert (forall m, In (S_ name, spec) (obj_insert k v m) -> (k, v) = (S_ name, spec) \/ In (S_ name, spec) m) as Q.
        { intro m. induction m as [|[k1 v1] m IHm]; cbn [obj_insert]; [intros [E|[]]; left; exact E|]. destruct (str_compare k k1); cbn [In]; intuition. }
        apply Q in J as [J|J]; [left; left; exact J | right; exact J]. }
      intro J. apply Z in J as [J|[]]; exact J. }
    apply in_map_iff in J as ([k v] & E & J). unfold f in E. cbn [fst snd] in E. apply pair_equal_spec in E as [E1 E2].
    destruct v as [| | | | |m]; subst spec; try discriminate.
    assert (exists u, obj_get (S_ "version") m = Some u) as [u U].
    { clear -V. induction m as [|[k v] m IH]; [discriminate|]. cbn [map obj_get fst snd] in *. destruct (str_eqb (S_ "version") k); [eexists; reflexivity | exact (IH V)]. }
    assert (obj_get k o = Some (JObj m)) as GO by (apply obj_get_nodup; [apply ND, field_get, M | exact J]).
    assert (k = S_ "pactSpecification" \/ k = S_ "pact-specification") as [-> | ->].
    { unfold metadata_key in E1. destruct (str_eqb_spec k (S_ "pact-specification")) as [K|K]; [right; exact K|]. destruct (str_eqb_spec k (S_ "pact-rust")) as [K'|K']; [|rewrite E1; exact NM].
      exfalso. rewrite <- E1 in NM. destruct NM as [NM|NM]; discriminate. }
    - apply (N1 u). exists (JObj o), (JObj m). repeat (apply conj); apply field_get; assumption.
    - apply (N2 u). exists (JObj o), (JObj m). repeat (apply conj); apply field_get; assumption. }
  destruct (if obj_has (S_ "pact-specification") md then _ else _) as [spec|] eqn:SP; [|reflexivity]. destruct (obj_get (S_ "version") spec) as [t|] eqn:V; [|reflexivity].
  exfalso. destruct (obj_has (S_ "pact-specification") md); [exact (NO "pact-specification"%string spec t SP (or_intror eq_refl) V) | exact (NO "pactSpecification"%string spec t SP (or_introl eq_refl) V)].
Qed.
Theorem C114_version : forall j name v o, (name = "pactSpecification" \/ name = "pact-specification")%string -> says_version j name v ->
  field_is "metadata" j (JObj o) -> NoDup (map metadata_key (keys o)) ->
  version_of j = version_meaning (semver (as_text w v)).
Proof.
  intros j name v o NM (md & spec & F1 & F2 & F3) F ND. apply field_get in F, F1. rewrite F in F1. injection F1 as <-. apply field_get in F2, F3. cbn [json_get] in F2.
  destruct spec as [| | | | |m]; try discriminate. cbn [json_get] in F3.
  unfold determine_spec_version, parse_meta_data. rewrite F.
  set (f := fun kv : str * json => (metadata_key (fst kv), match snd kv with JObj m => map (fun kv => (fst kv, text_or_shown w (snd kv))) m | _ => [] end)).
  assert (G : forall k, obj_get k (obj_of_list (map f o)) = obj_get k (map f o)).
  { intro k. rewrite of_list_get. apply last_get. unfold keys, f. rewrite map_map. cbn [fst]. unfold keys in ND. rewrite map_map in ND. exact ND. }
  assert (obj_has (S_ "pact-specification") (obj_of_list (map f o)) = false) as ->.
  { unfold obj_has. rewrite G. destruct (obj_get (S_ "pact-specification") (map f o)) as [u|] eqn:Z; [|reflexivity]. exfalso. apply obj_get_in in Z. apply in_map_iff in Z as ([k u'] & E & _).
    unfold f in E. cbn [fst snd] in E. apply pair_equal_spec in E as [E _]. unfold metadata_key in E.
    destruct (str_eqb_spec k (S_ "pact-specification")); [discriminate|]. destruct (str_eqb k (S_ "pact-rust")); [discriminate | contradiction]. }
  rewrite G.
  assert (obj_get (S_ "pactSpecification") (map f o) = Some (map (fun kv => (fst kv, text_or_shown w (snd kv))) m)) as ->.
  { apply obj_get_nodup; [unfold keys, f; rewrite map_map; cbn [fst]; unfold keys in ND; rewrite map_map in ND; exact ND|]. apply in_map_iff. exists (S_ name, JObj m).
    split; [|apply obj_get_in, F2]. unfold f. cbn [fst snd]. destruct NM as [-> | ->]; reflexivity. }
  assert (obj_get (S_ "version") (map (fun kv => (fst kv, text_or_shown w (snd kv))) m) = Some (text_or_shown w v)) as ->.
  { clear -F3. induction m as [|[k u] m IH]; [discriminate|]. cbn [map obj_get fst snd] in *. destruct (str_eqb (S_ "version") k); [congruence | exact (IH F3)]. }
  unfold version_meaning. destruct (semver (text_or_shown w v)) as [[ma mi]|] eqn:SV; change (as_text w v) with (text_or_shown w v); rewrite SV; reflexivity.
Qed.
(** ** Files *)
(** The file is an object; V4 if it says so; otherwise messages if it has that field, and HTTP interactions if not. *)
Theorem C114_load : forall j p, load_pact w x semver j = Ok p ->
  (exists o, j = JObj o) /\
  match p with
  | AV4 p => version_of j = SV4 /\ reads_pact w x j p
  | AMsg p => version_of j <> SV4 /\ ~ left_out "messages" j /\ reads_message_pact w x j p /\ (mf_msgs p = [] \/ version_of j = SV3)
  | AHttp p => version_of j <> SV4 /\ left_out "messages" j /\ reads_http_pact w x j p /\ hp_version p = version_of j
  end.
Proof.
  intros j p H. destruct j as [| | | | |o]; try discriminate. split; [exists o; reflexivity|]. unfold load_pact in H.
  destruct (match version_of (JObj o) with SV4 => true | _ => false end) eqn:V.
  - assert (version_of (JObj o) = SV4) as V4 by (destruct (version_of (JObj o)); congruence). rewrite V4 in H.
    destruct (pact_from_json w x (JObj o)) as [q| |] eqn:Q; try discriminate. cbn [bind] in H. apply ok_inj in H. subst p. split; [exact V4 | exact (C114_pact w x _ _ Q)].
  - assert (version_of (JObj o) <> SV4) as V4 by (intro Z; rewrite Z in V; discriminate).
    assert ((if obj_has (S_ "messages") o then bind (message_pact_from_json w x semver (JObj o)) (fun p => Ok (AMsg p))
             else bind (http_pact_from_json w x semver (JObj o)) (fun p => Ok (AHttp p))) = Ok p) as H' by (destruct (version_of (JObj o)); [exact H | exact H | exact H | exact H | exact H | congruence]).
    clear H. unfold obj_has in H'. destruct (obj_get (S_ "messages") o) as [ms|] eqn:MS.
    + destruct (message_pact_from_json w x semver (JObj o)) as [q| |] eqn:Q; try discriminate. cbn [bind] in H'. apply ok_inj in H'. subst p. split; [exact V4|].
      split; [intro L; apply left_get in L; cbn [json_get] in L; congruence|].
      unfold message_pact_from_json in Q. cbv zeta in Q. cbn [json_get] in Q. rewrite MS in Q. destruct ms as [| | | |vs|]; try discriminate.
      match type of Q with bind ?a _ = _ => destruct a as [l| |] eqn:L; try discriminate end. cbn [bind] in Q. apply ok_inj in Q. subst q.
      unfold reads_message_pact. cbn [mf_who who_read consumer provider mf_msgs]. split.
      * split; [apply name_read|]. split; [apply name_read|]. apply (list_read _ (old_message_from_json w x (version_of (JObj o))) (reads_old_message w x) "messages" (JObj o)).
        -- intros n v i M. apply C114_old_message in M as [_ M]. exact M.
        -- cbn [json_get]. rewrite MS. exact L.
      * destruct vs as [|v vs]; [cbn in L; left; congruence|]. right. cbn [number_from map fst snd collect] in L.
        destruct (old_message_from_json w x (version_of (JObj o)) 0 v) as [m| |] eqn:M; try discriminate. apply C114_old_message in M as [M _]. exact M.
    + destruct (http_pact_from_json w x semver (JObj o)) as [q| |] eqn:Q; try discriminate. cbn [bind] in H'. apply ok_inj in H'. subst p. split; [exact V4|].
      split; [apply left_get; exact MS|]. exact (C114_http_pact w x semver _ _ V4 Q).
Qed.
End Reading.

(** A file with as little as possible: a request and a response with the defaults; one more field changes one thing. *)
Definition bare_file (i : list (str * json)) : json :=
  JObj [(S_ "interactions", JArr [JObj ((S_ "type", JStr (S_ "Synchronous/HTTP")) :: i)]);
        (S_ "metadata", JObj [(S_ "pactSpecification", JObj [(S_ "version", JStr (S_ "4.0"))])])].
Definition loads (j : json) : outcome any_pact unit := load_pact digits_world file_ext lenient j.
Theorem C114_example :
  loads (bare_file []) = Ok (AV4 (mkVF (mkWho (S_ "consumer") (S_ "provider"))
    [mkFI None None (S_ "Interaction 0") [] (FHttp (mkReq (S_ "GET") (S_ "/") None None BMissing [], []) (mkResp 200 None BMissing [], [])) (mkExtra [] false [] ([], []) None)]
    [(S_ "pactSpecification", JObj [(S_ "version", JStr (S_ "4.0"))])] [])) /\
  (exists p i q r, loads (bare_file [(S_ "pending", JBool true); (S_ "response", JObj [(S_ "status", JNum (PosInt 65740))])]) = Ok (AV4 p) /\
    vf_ints p = [i] /\ x_pending (f_extra i) = true /\ f_payload i = FHttp q r /\ resp_status (fst r) = 204).
Proof. split; [vm_compute; reflexivity|]. eexists _, _, _, _. split; [vm_compute; reflexivity|]. repeat (apply conj); reflexivity. Qed.
