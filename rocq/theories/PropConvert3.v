(** C100: what cannot be written in an older version; conversions there and back; which kind of pact is loaded. *)
From Coq Require Import Ascii String List Arith NArith ZArith Lia Bool Permutation Sorted.
From Verif Require Import Base PathExp Json Text TextProofs MatchingRules Matchers JsonCompare Headers Query QueryString ContentType Http Merge Expr Generators Base64 PactFile OldFile
  SpecQuery SpecRules SpecRulesV2 SpecGenerators SpecVerifier PropHeaders SpecPactFile SpecOldFile SpecConvert PropVerifier PropBroker2 PropStateChange QueryProofs
  PactFileProofs PactFileProofs2 PropPactFile PropPactFile2 PropPattern3 OldFileProofs OldFileProofs2 PropOldFile PropOldFile2 PropConvert PropConvert2.
Import ListNotations.
Open Scope N_scope.
Local Opaque show_N.

(** ** No errors *)
Definition no_error {A} (m : outcome A unit) : Prop := m <> Err tt.
Lemma bind_no_error : forall A B (m : outcome A unit) (f : A -> outcome B unit), no_error m -> (forall a, no_error (f a)) -> no_error (bind m f).
Proof. intros A B [a|[]|] f H1 H2; cbn [bind]; [apply H2|congruence|discriminate]. Qed.
Lemma collect_no_error : forall A (l : list (outcome A unit)), Forall no_error l -> no_error (collect l).
Proof.
  intros A l H. induction H as [|m l Hm _ IH]; [discriminate|]. cbn [collect]. apply bind_no_error; [exact Hm|]. intro a. apply bind_no_error; [exact IH|]. discriminate.
Qed.
Lemma mapM_no_error : forall A B (f : A -> outcome B unit) l, (forall a, no_error (f a)) -> no_error (mapM_o f l).
Proof.
  intros A B f l H. induction l as [|a l IH]; [discriminate|]. cbn [mapM_o]. apply bind_no_error; [apply H|]. intro b. apply bind_no_error; [exact IH|]. discriminate.
Qed.

Lemma percent_no_error : forall n l, (length l <= n)%nat -> no_error (percent_pairs l).
Proof.
  induction n as [|n IH]; intros [|a [|b l]] L; cbn [length] in L; try lia; try discriminate; cbn [percent_pairs].
  apply bind_no_error; [apply IH; lia|]. discriminate.
Qed.
Lemma encode_no_error : forall s, no_error (encode_query s).
Proof.
  induction s as [|c s IH]; [discriminate|]. cbn [encode_query]. apply bind_no_error.
  - unfold encode_char. destruct (c =? 32); [discriminate|]. destruct (plain_char c); [discriminate|]. eapply percent_no_error. apply le_n.
  - intro a. apply bind_no_error; [exact IH|]. discriminate.
Qed.
Lemma query_no_error : forall v q, no_error (old_query_written v q).
Proof.
  intros v [m|]; [|discriminate]. unfold old_query_written. destruct (newer v); [discriminate|]. apply bind_no_error; [|discriminate]. unfold build_query_string.
  apply bind_no_error; [|discriminate]. apply mapM_no_error. intro kv. apply mapM_no_error. intros [s|]; [|discriminate]. cbn [build_pair]. apply bind_no_error; [apply encode_no_error|]. discriminate.
Qed.
Lemma rules_no_error : forall v m, no_error (old_rules_written v m).
Proof.
  intros v m. unfold old_rules_written, rules_written. destruct (newer v); (destruct (mr_is_empty m); [discriminate|]); destruct (existsb _ m); discriminate.
Qed.
Lemma http_no_error : forall w x v i, no_error (http_to_json w x v i).
Proof.
  intros w x v i. unfold http_to_json. apply bind_no_error.
  - unfold old_request_to_json. apply bind_no_error; [apply query_no_error|]. intro. apply bind_no_error; [apply rules_no_error|]. discriminate.
  - intro. apply bind_no_error; [|discriminate]. unfold old_response_to_json. apply bind_no_error; [apply rules_no_error|]. discriminate.
Qed.
Lemma message_no_error : forall w x v i, no_error (old_message_to_json w x v i).
Proof. intros w x v i. unfold old_message_to_json. apply bind_no_error; [apply rules_no_error|]. discriminate. Qed.
Lemma map_no_error : forall A B (f : A -> outcome B unit) l, (forall a, no_error (f a)) -> no_error (collect (map f l)).
Proof. intros A B f l H. apply collect_no_error. rewrite Forall_forall. intros m I1. apply in_map_iff in I1. destruct I1 as (a & <- & _). apply H. Qed.

(** ** What an older version cannot hold *)
(** A V4 pact is refused exactly if its interactions are of different kinds, or synchronous messages, or messages for a
    version before V3. *)
Theorem C100_downgrade_refused : forall w x lib v p, v <> SV4 ->
  (v4_pact_to_json w x lib v p = Err tt <->
   (exists i j, In i (vf_ints p) /\ In j (vf_ints p) /\ ~ same_kind i j) \/
   (exists i, In i (vf_ints p) /\ is_sync i) \/
   (v <> SV3 /\ exists i, In i (vf_ints p) /\ is_async i)).
Proof.
  intros w x lib v p NV.
  assert (E : v4_pact_to_json w x lib v p =
    if mixed (vf_ints p) then Err tt
    else if (match vf_ints p with [] => true | _ => false end) || has_kind KHttp (vf_ints p) then http_pact_to_json w x lib v (v4_as_http w p)
    else if has_kind KAsync (vf_ints p) then message_pact_to_json w x lib v (v4_as_message w p) else Err tt) by (destruct v; try reflexivity; congruence).
  rewrite E. clear E. destruct (mixed (vf_ints p)) eqn:M; [split; [intros _; left; apply mixed_iff, M|reflexivity]|].
  assert (Sm : forall i j, In i (vf_ints p) -> In j (vf_ints p) -> kind_of i = kind_of j).
  { intros i j I1 I2. destruct (kind_eqb (kind_of i) (kind_of j)) eqn:K; [apply kind_eqb_iff, K|]. exfalso. assert (mixed (vf_ints p) = true); [|congruence]. apply mixed_iff. exists i, j.
    split; [exact I1|]. split; [exact I2|]. intro K'. apply kind_same, kind_eqb_iff in K'. congruence. }
  assert (Nm : ~ exists i j, In i (vf_ints p) /\ In j (vf_ints p) /\ ~ same_kind i j).
  { intros (i & j & I1 & I2 & K). apply K, kind_same, Sm; assumption. }
  destruct ((match vf_ints p with [] => true | _ => false end) || has_kind KHttp (vf_ints p)) eqn:H.
  - split.
    + intro F. exfalso. revert F. unfold http_pact_to_json. destruct v; try congruence; apply bind_no_error; try discriminate; apply map_no_error; intro; apply http_no_error.
    + assert (A : forall i, In i (vf_ints p) -> is_http i).
      { intros i I1. apply orb_true_iff in H. destruct H as [H|H]; [destruct (vf_ints p); [destruct I1|discriminate]|]. apply has_kind_iff in H. destruct H as (i' & I2 & K). apply kind_http. rewrite (Sm i i' I1 I2). exact K. }
      intros [F|[(i & I1 & q & l & P)|(_ & i & I1 & m & P)]]; [contradiction| |]; exfalso; destruct (A i I1) as (q' & r & P'); congruence.
  - apply orb_false_iff in H. destruct H as [Hn Hh].
    destruct (has_kind KAsync (vf_ints p)) eqn:Ha.
    + apply has_kind_iff in Ha. destruct Ha as (i0 & I0 & K0).
      split.
      * intro F. right. right. split; [|exists i0; split; [exact I0|apply kind_async, K0]]. intros ->. revert F. unfold message_pact_to_json. apply bind_no_error; [|discriminate]. apply map_no_error. intro. apply message_no_error.
      * intros [F|[(i & I1 & K)|(V3 & _)]]; [contradiction| |destruct v; try congruence; reflexivity]. exfalso. apply kind_sync in K. rewrite (Sm i i0 I1 I0), K0 in K. discriminate.
    + split; [intros _|reflexivity]. right. left. destruct (vf_ints p) as [|i l] eqn:L; [discriminate|]. exists i. split; [left; reflexivity|]. apply kind_sync.
      destruct (kind_of i) eqn:K; [| |reflexivity].
      * exfalso. assert (has_kind KHttp (i :: l) = true); [|congruence]. apply has_kind_iff. exists i. split; [left; reflexivity|exact K].
      * exfalso. assert (has_kind KAsync (i :: l) = true); [|congruence]. apply has_kind_iff. exists i. split; [left; reflexivity|exact K].
Qed.

(** ** There and back *)
(** Nothing of an interaction is lost on the way to V4 and back. *)
Theorem C100_http_there_and_back : forall w p, hp_ints (v4_as_http w (http_as_v4 p)) = hp_ints p /\ hp_who (v4_as_http w (http_as_v4 p)) = hp_who p.
Proof.
  intros w [who l md v]. cbn [v4_as_http http_as_v4 vf_ints vf_who hp_ints hp_who]. split; [|reflexivity].
  induction l as [|i l IH]; [reflexivity|]. cbn [map flat_map]. rewrite IH. destruct i. reflexivity.
Qed.
(** A message gets the type of its contents in its metadata. *)
Theorem C100_messages_there_and_back : forall w p, Forall (fun m => rules_ok w (msg_rules (fst (om_body m)))) (mf_msgs p) ->
  mf_who (v4_as_message w (message_as_v4 p)) = mf_who p /\
  Forall2 (fun m m' => om_id m' = om_id m /\ om_desc m' = om_desc m /\ om_states m' = om_states m /\ snd (om_body m') = snd (om_body m) /\
    msg_contents (fst (om_body m')) = msg_contents (fst (om_body m)) /\ msg_rules (fst (om_body m')) = msg_rules (fst (om_body m)) /\
    typed_metadata (fst (om_body m)) (msg_metadata (fst (om_body m')))) (mf_msgs p) (mf_msgs (v4_as_message w (message_as_v4 p))).
Proof.
  intros w [who l md v] H. cbn [v4_as_message message_as_v4 vf_ints vf_who mf_msgs mf_who] in *. split; [reflexivity|].
  induction H as [|m l R _ IH]; [constructor|]. cbn [map flat_map]. unfold downgrade_message at 1, upgrade_message at 1. cbn [f_payload app fst snd with_rules msg_contents msg_rules f_id f_desc f_states].
  constructor; [|exact IH]. cbn [om_id om_desc om_states om_body fst snd msg_contents msg_rules msg_metadata].
  rewrite !(rename_same w _ R). repeat (match goal with |- _ /\ _ => split end); try reflexivity.
  destruct m as [id d st [[b mmd rs] g]]. cbn [om_body fst msg_contents msg_metadata]. exact (add_type_typed (mkMsg b mmd rs)).
Qed.

(** ** Loading *)
Lemma merged_get : forall (A : Type) (md : list (str * A)), StronglySorted str_lt (keys md) ->
  last_entry (S_ "pactSpecification") (map (fun kv => (metadata_key (fst kv), snd kv)) md) =
  match obj_get (S_ "pactSpecification") md with Some s => Some s | None => obj_get (S_ "pact-specification") md end.
Proof.
  intros A md. induction md as [|[k v] md IH]; intro S; [reflexivity|]. unfold keys in S. cbn [map fst] in S. inversion S as [|? ? S1 S2]; subst.
  cbn [map fst snd last_entry obj_get]. rewrite (IH S1). unfold metadata_key.
  assert (Lt : forall k', In k' (keys md) -> str_lt k k') by (rewrite Forall_forall in S2; exact S2).
  destruct (str_eqb_spec k (S_ "pact-specification")) as [->|N1].
  - change (str_eqb (S_ "pactSpecification") (S_ "pactSpecification")) with true. change (str_eqb (S_ "pactSpecification") (S_ "pact-specification")) with false. cbv iota. rewrite str_eqb_refl.
    assert (obj_get (S_ "pact-specification") md = None) as ->.
    { apply obj_get_none. intro I1. specialize (Lt _ I1). revert Lt. vm_compute. discriminate. }
    destruct (obj_get (S_ "pactSpecification") md); reflexivity.
  - destruct (str_eqb_spec (S_ "pact-specification") k) as [E|_]; [congruence|].
    destruct (str_eqb_spec (S_ "pactSpecification") k) as [<-|N2].
    + change (if str_eqb (S_ "pactSpecification") (S_ "pact-rust") then S_ "pactRust" else S_ "pactSpecification") with (S_ "pactSpecification"). rewrite str_eqb_refl.
      assert (obj_get (S_ "pactSpecification") md = None) as ->.
      { apply obj_get_none. intro I1. specialize (Lt _ I1). revert Lt. vm_compute. discriminate. }
      assert (obj_get (S_ "pact-specification") md = None) as ->; [|reflexivity].
      apply obj_get_none. intro I1. specialize (Lt _ I1). revert Lt. vm_compute. discriminate.
    + destruct (str_eqb_spec k (S_ "pact-rust")); [change (str_eqb (S_ "pactSpecification") (S_ "pactRust")) with false|];
        [|destruct (str_eqb_spec (S_ "pactSpecification") k); [congruence|]]; (destruct (obj_get (S_ "pactSpecification") md); [reflexivity|]); destruct (obj_get (S_ "pact-specification") md); reflexivity.
Qed.
Lemma key_gone : forall (A : Type) (md : list (str * A)), last_entry (S_ "pact-specification") (map (fun kv => (metadata_key (fst kv), snd kv)) md) = None.
Proof.
  intros A md. induction md as [|[k v] md IH]; [reflexivity|]. cbn [map last_entry fst snd]. rewrite IH. destruct (metadata_key_not k) as [N1 _].
  destruct (str_eqb_spec (S_ "pact-specification") (metadata_key k)); [congruence|reflexivity].
Qed.
Lemma version_is : forall w semver j, metadata_sorted j -> is_version semver (declared_version w j) (determine_spec_version semver (parse_meta_data w j)).
Proof.
  intros w semver j Srt. unfold declared_version, parse_meta_data. destruct (json_get (S_ "metadata") j) as [md|] eqn:G; [|reflexivity].
  destruct md as [| | | | |o]; try reflexivity. specialize (Srt o G).
  set (f := fun kv : str * json => _). replace (map f o) with (map (fun kv : str * list (str * str) => (metadata_key (fst kv), snd kv)) (map (fun kv => (fst kv, texts_of w (snd kv))) o)).
  2:{ rewrite map_map. apply map_ext. intros [k v]. reflexivity. }
  clear f. unfold determine_spec_version, obj_has. rewrite !of_list_get, key_gone, merged_get.
  2:{ unfold keys. rewrite map_map. exact Srt. }
  rewrite !(obj_get_map json (list (str * str)) (texts_of w)). cbn [json_get].
  set (e := match obj_get (S_ "pactSpecification") o with Some s => Some s | None => obj_get (S_ "pact-specification") o end).
  match goal with |- context [match ?a with Some s => Some s | None => ?b end] => lazymatch a with context [texts_of] =>
    assert (match a with Some s => Some s | None => b end = option_map (texts_of w) e) as -> by (subst e; destruct (obj_get (S_ "pactSpecification") o); [reflexivity|destruct (obj_get (S_ "pact-specification") o); reflexivity]) end end.
  clearbody e. destruct e as [s|]; [|reflexivity]. cbn [option_map].
  destruct s as [| | | | |m]; try reflexivity. cbn [texts_of json_get]. rewrite (obj_get_map json str (text_or_shown w)). destruct (obj_get (S_ "version") m) as [v|]; [|reflexivity]. cbn [option_map].
  assert ((match v with JStr t => t | v => json_show w v end) = text_or_shown w v) as -> by (destruct v; reflexivity).
  unfold is_version. destruct (semver (text_or_shown w v)) as [[major minor]|]; [|left; reflexivity].
  destruct (N.eqb_spec major 1) as [->|M1]; [destruct (N.eqb_spec minor 1) as [->|]; [reflexivity|exists minor; split; [reflexivity|assumption]]|].
  destruct (N.eqb_spec major 2) as [->|M2]; [exists minor; reflexivity|]. destruct (N.eqb_spec major 3) as [->|M3]; [exists minor; reflexivity|].
  destruct (N.eqb_spec major 4) as [->|M4]; [exists minor; reflexivity|]. right. exists major, minor. split; [reflexivity|lia].
Qed.
(** What is loaded is an object; a V4 file gives a V4 pact, another file with an entry "messages" a message pact, and every
    other file a pact of requests and responses. The pact has the version that the file declares. *)
Theorem C100_loaded_kind : forall w x semver j p, metadata_sorted j -> load_pact w x semver j = Ok p ->
  exists o v, j = JObj o /\ is_version semver (declared_version w j) v /\
    match p with
    | AV4 _ => v = SV4
    | AMsg m => v <> SV4 /\ In (S_ "messages") (keys o) /\ mf_version m = v
    | AHttp h => v <> SV4 /\ ~ In (S_ "messages") (keys o) /\ hp_version h = v
    end.
Proof.
  intros w x semver j p Srt L. pose proof (version_is w semver j Srt) as V. destruct j as [| | | | |o]; try discriminate. exists o, (determine_spec_version semver (parse_meta_data w (JObj o))).
  split; [reflexivity|]. split; [exact V|]. unfold load_pact in L. set (J := JObj o) in *. set (v := determine_spec_version semver (parse_meta_data w J)) in *.
  assert (L' : (v = SV4 /\ bind (pact_from_json w x J) (fun p => Ok (AV4 p)) = Ok p) \/
    (v <> SV4 /\ (if obj_has (S_ "messages") o then bind (message_pact_from_json w x semver J) (fun p => Ok (AMsg p)) else bind (http_pact_from_json w x semver J) (fun p => Ok (AHttp p))) = Ok p)).
  { destruct v; try (right; split; [discriminate|exact L]). left. split; [reflexivity|exact L]. }
  clear L. destruct L' as [[E L]|[E L]].
  - destruct (pact_from_json w x J); try discriminate. injection L as <-. exact E.
  - unfold obj_has in L. destruct (obj_get (S_ "messages") o) eqn:Gm.
    + unfold message_pact_from_json in L. fold v in L. match type of L with bind (bind ?a _) _ = _ => destruct a; try discriminate end. injection L as <-. split; [exact E|]. split; [|reflexivity].
      apply obj_get_in in Gm. apply in_map_iff. exists (S_ "messages", j). split; [reflexivity|exact Gm].
    + assert (H : exists l, p = AHttp (mkHP (who_read w J) l (parse_meta_data w J) v)).
      { unfold http_pact_from_json in L. fold v in L. destruct v; try congruence; match type of L with bind (bind ?a _) _ = _ => destruct a; try discriminate end; injection L as <-; eauto. }
      destruct H as (l & ->). split; [exact E|]. split; [apply obj_get_none, Gm|reflexivity].
Qed.
Theorem C100_only_objects : forall w x semver j, (forall o, j <> JObj o) -> load_pact w x semver j = Err tt.
Proof. intros w x semver j H. destruct j; try reflexivity. destruct (H m eq_refl). Qed.
(** A message file that is read holds one message for every entry of its list of messages, and
    messages that are not a list are refused. *)
Lemma collect_length {A} : forall (l : list (outcome A unit)) r, collect l = Ok r -> length r = length l.
Proof.
  induction l as [|o l IH]; intros r; cbn [collect]; [intros [= <-]; reflexivity|]. destruct o; try discriminate. cbn [bind].
  destruct (collect l) as [r'| |] eqn:C; try discriminate. intros [= <-]. cbn. now rewrite (IH r' eq_refl).
Qed.
Lemma number_length {A} : forall (l : list A) i, length (number_from i l) = length l.
Proof. induction l as [|a l IH]; intro i; [reflexivity|]. cbn. now rewrite IH. Qed.
Theorem C100_messages_are_a_list : forall w x semver j p, message_pact_from_json w x semver j = Ok p ->
  match json_get (S_ "messages") j with
  | None => mf_msgs p = []
  | Some m => exists l, m = JArr l /\ length (mf_msgs p) = length l
  end.
Proof.
  intros w x semver j p. unfold message_pact_from_json. destruct (json_get (S_ "messages") j) as [m|]; [|intros [= <-]; reflexivity].
  destruct m as [| | | |l|]; try discriminate. intro H. exists l. split; [reflexivity|].
  destruct (collect _) as [ms| |] eqn:C; try discriminate H. injection H as <-. cbn [mf_msgs].
  apply collect_length in C. rewrite C, map_length. apply number_length.
Qed.
(** Messages in a file that declares another version than V3 are not loaded. *)
Theorem C100_old_message_files : forall w x semver o l v, metadata_sorted (JObj o) -> is_version semver (declared_version w (JObj o)) v ->
  v <> SV3 -> v <> SV4 -> obj_get (S_ "messages") o = Some (JArr l) -> l <> [] -> load_pact w x semver (JObj o) = Err tt.
Proof.
  intros w x semver o l v Srt V N3 N4 G Nl. pose proof (version_is w semver _ Srt) as V'.
  assert (Ev : determine_spec_version semver (parse_meta_data w (JObj o)) = v).
  { revert V V' N3. unfold is_version. destruct (declared_version w (JObj o)) as [t|]; [|congruence].
    destruct v, (determine_spec_version semver (parse_meta_data w (JObj o))); intros V V' N3; try reflexivity; try congruence; exfalso;
      repeat match goal with H : exists _, _ |- _ => destruct H | H : _ /\ _ |- _ => destruct H | H : _ \/ _ |- _ => destruct H end; try congruence;
      try (match goal with A : semver t = Some (?a, _), B : semver t = Some (?b, _) |- _ => rewrite A in B; injection B; intros; subst; lia end). }
  unfold load_pact. rewrite Ev. unfold obj_has. rewrite G.
  assert (message_pact_from_json w x semver (JObj o) = Err tt) as ->; [|destruct v; try reflexivity; congruence].
  unfold message_pact_from_json. rewrite Ev. unfold json_get at 1. rewrite G. destruct l as [|j l]; [congruence|]. cbn [number_from map collect fst snd].
  unfold old_message_from_json. destruct v; try reflexivity. congruence.
Qed.

(** ** Pacts that meet the conditions *)
Definition upgraded : http_pact :=
  mkHP (mkWho (S_ "c") (S_ "p"))
    [mkHI (Some (S_ "id")) (S_ "b") [mkState (S_ "s") [(S_ "n", JNum (PosInt 1)); (S_ "a", JNull)]]
       (file_request, [(GcBody, [(from_tokens [TRoot; TField (S_ "a")], GRandomInt 1 9)])]) (file_response, [])]
    [(S_ "custom", [(S_ "b", S_ "1"); (S_ "a", S_ "2")]); (S_ "pactRust", [(S_ "ffi", S_ "0.4")])] SV3.
Definition upgraded_messages : message_file := mkMF (mkWho (S_ "c") (S_ "p")) [mkOM None (S_ "a") [mkState (S_ "s") []] (file_message, [])] [(S_ "custom", [(S_ "b", S_ "1")])] SV3.
Example C100_upgrade_example :
  Forall (http_fits_v4 digits_world file_ext) (hp_ints upgraded) /\ metadata_fits_v4 (hp_meta upgraded) /\
  Forall (message_fits_v4 digits_world file_ext) (mf_msgs upgraded_messages) /\ metadata_fits_v4 (mf_meta upgraded_messages).
Proof.
  destruct C97_example as [(Fi & _) _]. unfold file_pact in Fi. cbn [vf_ints] in Fi. apply Forall_inv in Fi. destruct Fi as (S1 & _ & _ & _ & P1 & P2). cbn [f_states f_payload] in *.
  split; [constructor; [split; [exact S1|split; assumption]|constructor]|].
  split; [split; [split; [dist|split; [repeat constructor; cbn [In]; intuition discriminate|split; reflexivity]]|reflexivity]|].
  split; [constructor; [split; [repeat constructor|apply message_is_ok; reflexivity]|constructor]|].
  split; [split; [dist|split; [repeat constructor; cbn [In]; intuition discriminate|split; reflexivity]]|reflexivity].
Qed.
Definition newest : v4_file :=
  mkVF (mkWho (S_ "c") (S_ "p"))
    [mkFI (Some (S_ "id")) (Some (S_ "k")) (h_desc old_http) (h_states old_http) (FHttp (h_request old_http) (h_response old_http))
       (mkExtra [(S_ "text", JArr [JStr (S_ "hi")])] true [(S_ "plug", [(S_ "x", JBool true)])] (S_ "m", S_ "COMMON_MARK") (Some (S_ "https")))]
    [(S_ "pactSpecification", JObj []); (S_ "custom", JNum (PosInt 7)); (S_ "pactRust", JObj [(S_ "ffi", JStr (S_ "1"))])] [mkPlugin (S_ "csv") (S_ "1") []].
Definition newest_messages : v4_file :=
  mkVF (mkWho (S_ "c") (S_ "p")) [mkFI None (Some (S_ "k")) (S_ "a picture") [] (FAsync (mkMsg (msg_contents file_message) [] [], [])) extra_default] [(S_ "custom", JNum (PosInt 7))] [].
Example C100_downgrade_example : forall v, In v [SV2; SV3] ->
  Forall (http_fits digits_world file_ext v) (vf_ints newest) /\ metadata_fits (vf_meta newest) /\
  Forall (message_fits digits_world file_ext) (vf_ints newest_messages) /\ metadata_fits (vf_meta newest_messages).
Proof.
  intros v Hv. destruct (old_http_ok v Hv) as (A1 & A2 & A3). split; [constructor; [|constructor]; eexists _, _; split; [reflexivity|]; split; [exact A1|split; assumption]|].
  split; [split; [dist|split; [|split; reflexivity]]; intros k m [E|[E|[E|[]]]]; try discriminate; injection E as <- <-; dist|].
  split; [|split; [dist|split; [|split; reflexivity]]; intros k m [E|[]]; discriminate].
  constructor; [|constructor]. unfold newest_messages. eexists. split; [reflexivity|]. cbn [fst snd msg_metadata]. split; [constructor|]. intros md D Ty.
  unfold typed_metadata in Ty. cbn [msg_metadata msg_contents file_message] in Ty.
  assert (E : forall k v, In (k, v) md -> k = S_ "contentType" /\ v = JStr (S_ "image/png")).
  { intros k v0 I1. pose proof (obj_get_nodup _ _ _ _ D I1) as G. specialize (Ty k). rewrite entry_obj_get in Ty. rewrite Ty in G. cbn [obj_get] in G.
    destruct (str_eqb_spec k (S_ "contentType")); [|discriminate]. split; [assumption|]. injection G as <-. reflexivity. }
  assert (In1 : In (S_ "contentType", JStr (S_ "image/png")) md) by (apply obj_get_in; rewrite <- entry_obj_get; rewrite (Ty (S_ "contentType")); reflexivity).
  unfold old_message_ok. cbn [om_body om_states fst snd msg_metadata msg_contents msg_rules file_message]. split; [constructor|]. split; [exact D|]. split; [|split; [|split]].
  - intros k k' v0 v' I1 I2 _ _. destruct (E _ _ I1), (E _ _ I2). congruence.
  - intros k v0 I1 _. destruct (E _ _ I1) as [-> ->]. eexists. split; reflexivity.
  - intros t [(k & v0 & I1 & _ & ->)|[N1 _]]; [destruct (E _ _ I1) as [-> ->]|exfalso; apply (N1 _ _ In1); left; reflexivity].
    cbn [old_body_ok]. change (is_json _) with false. cbv iota. change (is_binary _) with true. cbv iota. split; [discriminate|]. split; [repeat constructor|reflexivity].
  - split; constructor.
Qed.
(** Every reason for a refusal occurs, and a file of every kind. *)
Example C100_refused_example : forall w x lib,
  v4_pact_to_json w x lib SV3 (mkVF (mkWho [] []) [mkFI None None [] [] (FAsync (mkMsg BMissing [] [], [])) extra_default] [] []) <> Err tt /\
  v4_pact_to_json w x lib SV2 (mkVF (mkWho [] []) [mkFI None None [] [] (FAsync (mkMsg BMissing [] [], [])) extra_default] [] []) = Err tt /\
  v4_pact_to_json w x lib SV3 (mkVF (mkWho [] []) [mkFI None None [] [] (FSync (mkMsg BMissing [] [], []) []) extra_default] [] []) = Err tt.
Proof. intros w x lib. split; [discriminate|]. split; reflexivity. Qed.
Example C100_loaded_example :
  let file spec extra := JObj (extra ++ [(S_ "metadata", JObj [(spec, JObj [(S_ "version", JStr (S_ "4.0"))])])]) in
  (exists p, load_pact digits_world file_ext lenient (file (S_ "pactSpecification") []) = Ok (AV4 p)) /\
  (exists p, load_pact digits_world file_ext lenient (file (S_ "pact-specification") []) = Ok (AV4 p)) /\
  (exists p, load_pact digits_world file_ext lenient (file (S_ "other") []) = Ok (AHttp p)) /\
  (exists p, load_pact digits_world file_ext lenient (file (S_ "other") [(S_ "messages", JArr [JObj []])]) = Ok (AMsg p)) /\
  metadata_sorted (file (S_ "pactSpecification") []).
Proof.
  intro file. split; [|split; [|split; [|split]]]; try (eexists; reflexivity). intros md E. unfold file in E. injection E as <-. repeat constructor.
Qed.
