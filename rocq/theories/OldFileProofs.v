(** Writing and reading the parts of a V1 to V3 pact file. *)
From Coq Require Import Ascii String List Arith NArith ZArith Lia Bool Permutation Sorted.
From Verif Require Import Base PathExp Json Text TextProofs MatchingRules Matchers JsonCompare Headers Query QueryString ContentType Http Merge Expr Generators Base64 PactFile OldFile
  SpecQuery SpecRules SpecRulesV2 SpecGenerators SpecVerifier PropHeaders SpecPactFile SpecOldFile QueryProofs HeaderProofs2 PropQuery RulesV2 PropVerifier PropBroker2 PropStateChange
  PactFileProofs PactFileProofs2 PropPactFile.
Import ListNotations.
Open Scope N_scope.
Local Opaque show_N.

Section Parts.
Variable w : world.
Variable x : externals.

(** ** Bodies *)
Definition in_file (binary : content_type -> bool) (declared : option content_type) (b : body) : option json :=
  match b with
  | BPresent bytes own _ =>
      let t := old_type x declared bytes own in
      Some (if is_json t then json_or_base64 x bytes else if binary t then JStr (b64_encode bytes) else text_or_base64 bytes)
  | BEmpty => Some (JStr [])
  | BMissing => None
  | BNull => Some JNull
  end.
Lemma json_text : forall t, is_json t = true -> is_text t = true.
Proof. intros t H. unfold is_text. rewrite H. destruct (main_is t (S_ "text") || is_xml t); reflexivity. Qed.
Lemma old_body_reads : forall binary declared headers b j attr, declared_type w x headers = Ok declared ->
  old_body_ok w x binary declared b -> json_get attr j = in_file binary declared b ->
  exists b', old_body_from_json w x j attr headers = Ok b' /\ old_body_back w x binary declared b b'.
Proof.
  intros binary declared headers b j attr D OK G. unfold old_body_from_json. rewrite D, G. cbn [bind]. clear D G.
  destruct b as [| | |bytes own h]; [eexists; split; reflexivity..|]. cbn [in_file old_body_ok old_body_back] in *.
  set (t := old_type x declared bytes own) in *. clearbody t. unfold text_in_file. destruct (is_json t) eqn:J.
  - destruct OK as (j0 & P & Nn & Ps). unfold json_or_base64. rewrite P. eexists. split; [|reflexivity].
    destruct j0 as [|b0|n0|s|l0|m0]; try reflexivity; [congruence|]. destruct (Ps s eq_refl) as ((Ne & Q & N1 & N2) & R).
    fold (read_type x declared s). destruct s as [|c s]; [congruence|]. rewrite R, (json_text _ R).
    assert (json_parsable x (c :: s) = false) as ->.
    { unfold json_parsable. destruct (json_of_bytes x (utf8 (c :: s))) as [[| | |s'| |m']|] eqn:E; try reflexivity; [destruct (N1 s' eq_refl)|destruct (N2 m' eq_refl)]. }
    rewrite Q. reflexivity.
  - assert (Enc : bytes <> [] /\ Forall (fun c => c < 256) bytes /\ is_text (read_type x declared (b64_encode bytes)) = false ->
      match Some (JStr (b64_encode bytes)) with
      | Some (JStr []) => Ok BEmpty
      | Some (JStr s) => let ct := match declared with Some c => c | None => detect_text x s end in
          if is_json ct then Ok (BPresent (if json_parsable x s then utf8 s else utf8 ([34] ++ s ++ [34])) (Some ct) None)
          else if is_text ct then Ok (BPresent (utf8 s) (Some ct) None)
          else Ok (BPresent (match b64_decode s with Some bytes => bytes | None => utf8 s end) None None)
      | Some JNull => Ok BNull
      | Some v => Ok (BPresent (utf8 (json_show w v)) None None)
      | None => Ok BMissing
      end = Ok (BPresent bytes None None) :> outcome body unit).
    { intros (Ne & By & T). pose proof (b64_round bytes By) as R. fold (read_type x declared (b64_encode bytes)).
      destruct (b64_encode bytes) as [|c s] eqn:E; [exfalso; apply Ne; cbn in R; congruence|]. rewrite <- E in *.
      cbv zeta. fold (read_type x declared (b64_encode bytes)). rewrite T, R. destruct (is_json (read_type x declared (b64_encode bytes))) eqn:J2; [apply json_text in J2; congruence|]. reflexivity. }
    destruct (binary t) eqn:B.
    + eexists. split; [apply Enc, OK|]. destruct OK as (_ & _ & ->). reflexivity.
    + unfold text_or_base64. destruct (from_utf8 bytes) as [s|] eqn:U; [|eexists; split; [apply Enc, OK|]; destruct OK as (_ & _ & ->); reflexivity].
      apply from_utf8_inv in U. destruct OK as (Ne & Nj & Tx). destruct s as [|c s]; [destruct (Ne U)|]. fold (read_type x declared (c :: s)). rewrite Nj.
      destruct (is_text (read_type x declared (c :: s))) eqn:T; (eexists; split; [reflexivity|]); [rewrite U; reflexivity|]. destruct Tx as [Tx|Tx]; [discriminate|]. rewrite Tx, U. reflexivity.
Qed.

(** ** Headers *)
Lemma find_get : forall A (f : str -> bool) (m : list (str * A)) k v, find (fun kv => f (fst kv)) m = Some (k, v) -> obj_get k m = Some v /\ f k = true.
Proof.
  intros A f m k v. induction m as [|[k' v'] m IH]; [discriminate|]. cbn [find obj_get fst]. destruct (f k') eqn:E.
  - intro H. assert (k' = k /\ v' = v) as [-> ->] by (split; congruence). rewrite str_eqb_refl. auto.
  - intro H. destruct (IH H) as [G F]. destruct (str_eqb_spec k k') as [->|]; [congruence|auto].
Qed.
Lemma find_unique : forall A (f : str -> bool) (m m' : list (str * A)), (forall k, obj_get k m' = obj_get k m) ->
  (forall k k' v v', In (k, v) m -> In (k', v') m -> f k = true -> f k' = true -> k = k') ->
  find (fun kv => f (fst kv)) m' = find (fun kv => f (fst kv)) m.
Proof.
  intros A f m m' E U. destruct (find (fun kv => f (fst kv)) m) as [[k v]|] eqn:F.
  - destruct (find_get _ _ _ _ _ F) as [G Fk]. destruct (find (fun kv => f (fst kv)) m') as [[k' v']|] eqn:F'.
    + destruct (find_get _ _ _ _ _ F') as [G' Fk']. rewrite E in G'. pose proof (U k k' v v' (obj_get_in _ _ _ _ G) (obj_get_in _ _ _ _ G') Fk Fk'). subst k'. congruence.
    + exfalso. rewrite <- E in G. apply obj_get_in in G. pose proof (find_none _ _ F' _ G) as X. cbn [fst] in X. congruence.
  - destruct (find (fun kv => f (fst kv)) m') as [[k' v']|] eqn:F'; [|reflexivity]. exfalso. destruct (find_get _ _ _ _ _ F') as [G' Fk']. rewrite E in G'.
    apply obj_get_in in G'. pose proof (find_none _ _ F _ G') as X. cbn [fst] in X. congruence.
Qed.
Lemma content_type_name : forall k, str_eqb (to_lower w k) (to_lower w (S_ "content-type")) = true <-> is_content_type w k.
Proof. intro k. rewrite str_eqb_eq. reflexivity. Qed.
Lemma old_headers_back : forall h j, old_headers_ok w h -> json_get (S_ "headers") j = option_map headers_to_json h ->
  exists h', headers_from_json w j = h' /\ same_option same_map h h' /\ declared_type w x h' = Ok (header_type w x h).
Proof.
  intros [m|] j OK G.
  2:{ exists None. unfold headers_from_json. rewrite G. split; [reflexivity|]. split; [exact I|reflexivity]. }
  destruct OK as (D & Wr & Un & One).
  destruct (proj2 (C35_headers_come_back_exactly_when w m D) Wr) as (m' & E & Sm).
  exists (Some m'). assert (headers_from_json w j = headers_from_json w (JObj [(S_ "headers", headers_to_json m)])) as ->.
  { unfold headers_from_json. rewrite G. reflexivity. }
  split; [exact E|]. split; [intro k; symmetry; apply Sm|].
  cbn [declared_type header_type]. unfold find_header.
  rewrite (find_unique _ (fun k => str_eqb (to_lower w k) (to_lower w (S_ "content-type"))) m m').
  - match goal with |- context [find ?f m] => destruct (find f m) as [[k vs]|] eqn:F end; [|reflexivity].
    destruct (find_get _ (fun k => str_eqb (to_lower w k) (to_lower w (S_ "content-type"))) _ _ _ F) as [G2 Fk]. apply content_type_name in Fk. destruct (One k vs (obj_get_in _ _ _ _ G2) Fk) as (v & ->). reflexivity.
  - intro k. specialize (Sm k). exact Sm.
  - intros k k' v v' I1 I2 F1 F2. apply content_type_name in F1. apply content_type_name in F2. exact (Un k k' v v' I1 I2 F1 F2).
Qed.
Lemma part_type : forall h b bytes own hint, old_headers_ok w h -> b = BPresent bytes own hint ->
  part_content_type w x (mkPart h b) = old_type x (header_type w x h) bytes own.
Proof.
  intros h b bytes own hint OK ->. unfold part_content_type, old_type, written_type. cbn [part_body part_headers body_content_type].
  destruct own as [t|]; [reflexivity|]. unfold lookup_header_value, header_type, detect_content_type. destruct h as [m|]; [|reflexivity].
  unfold find_header. match goal with |- context [find ?f m] => destruct (find f m) as [[k vs]|] eqn:F end; [|reflexivity].
  destruct (find_get _ (fun k => str_eqb (to_lower w k) (to_lower w (S_ "content-type"))) _ _ _ F) as [G2 Fk]. apply content_type_name in Fk. destruct OK as (_ & _ & _ & One).
  destruct (One k vs (obj_get_in _ _ _ _ G2) Fk) as (v & ->). cbn [snd join_with]. destruct (parse_mime x v); reflexivity.
Qed.
Lemma last_old_body : forall k name h b, old_headers_ok w h ->
  last_entry k (old_body_written x name (part_content_type w x (mkPart h b)) b) = if str_eqb k name then in_file never (header_type w x h) b else None.
Proof.
  intros k name h b OK. destruct b as [| | |bytes own hint]; cbn [old_body_written in_file]; rewrite ?last_one; try reflexivity; [destruct (str_eqb k name); reflexivity|].
  rewrite (part_type h _ bytes own hint OK eq_refl). reflexivity.
Qed.

(** ** Rules, generators and queries *)
Lemma old_rules_back : forall v m deprecated, v <> SV4 -> (forall d, deprecated = Some d -> d <> S_ "matchingRules") -> old_rules_ok w v m ->
  exists l, old_rules_written v m = Ok l /\ (forall k, k <> S_ "matchingRules" -> last_entry k l = None) /\
  forall j, json_get (S_ "matchingRules") j = last_entry (S_ "matchingRules") l ->
    (forall d, deprecated = Some d -> json_get d j = None) ->
  exists m', old_rules_read w deprecated j = Ok m' /\ same_old_rules v m m'.
Proof.
  intros v m deprecated NV ND OK. unfold old_rules_ok, same_old_rules in *.
  assert (Rd : forall j, (forall d, deprecated = Some d -> json_get d j = None) ->
    old_rules_read w deprecated j = lift (matchers_from_json w (json_get (S_ "matchingRules") j))).
  { intros j H. unfold old_rules_read. f_equal. f_equal. destruct (json_get (S_ "matchingRules") j); [reflexivity|]. cbn [Http.or_else].
    destruct deprecated as [d|]; [apply H; reflexivity|reflexivity]. }
  destruct (is_v3 v) eqn:V.
  - destruct (rules_back w m OK) as (l & E & Nl & R). exists l. assert (newer v = true) by (destruct v; try discriminate; reflexivity).
    unfold old_rules_written. rewrite H. split; [exact E|]. split; [exact Nl|]. intros j G Dp. rewrite Rd by exact Dp. exact (R j G).
  - assert (newer v = false) as Nv by (destruct v; try discriminate; try reflexivity; congruence). unfold old_rules_written. rewrite Nv.
    destruct (mr_is_empty m) eqn:E.
    + exists []. split; [reflexivity|]. split; [reflexivity|]. intros j G Dp. exists []. rewrite Rd, G by exact Dp. split; [reflexivity|].
      split; [constructor|]. split; [constructor|]. intro n. exists []. split; [|constructor].
      assert (rules_in n m = []) as ->; [|constructor]. clear -E. unfold mr_is_empty in E. rewrite forallb_forall in E. unfold rules_in.
      induction m as [|[n' [cn rs]] m IH]; [reflexivity|]. cbn [flat_map fst snd cat_rules]. rewrite IH by (intros y I1; apply E; right; exact I1).
      specialize (E _ (or_introl eq_refl)). unfold cat_is_empty in E. cbn in E. destruct rs; [|discriminate]. destruct (cat_eqb n' n); reflexivity.
    + destruct (existsb _ m) eqn:U.
      { exfalso. apply existsb_exists in U. destruct U as ([n c] & I1 & U). apply existsb_exists in U. destruct U as ([p rl] & I2 & U). cbn [snd] in *.
        destruct OK as [_ OK]. rewrite Forall_forall in OK. destruct (OK _ I1) as (_ & _ & OK1). cbn [fst snd] in OK1. rewrite Forall_forall in OK1. destruct (OK1 _ I2) as ((r & rest & Er & Wr) & _).
        cbn [snd] in Er. unfold first_unresolved in U. rewrite Er in U. apply writable_resolved in Wr. congruence. }
      eexists. split; [reflexivity|]. split.
      * intros k N1. rewrite last_one. destruct (str_eqb_spec k (S_ "matchingRules")); [contradiction|reflexivity].
      * intros j G Dp. rewrite last_one, str_eqb_refl in G. destruct (collection_roundtrip w m OK) as (m' & R & Sm). exists m'. rewrite Rd, G, R by exact Dp. split; [reflexivity|exact Sm].
Qed.
Lemma last_old_generators : forall k v g, last_entry k (old_generators_written v g) =
  if str_eqb k (S_ "generators") then (if gens_is_empty g then None else Some (if newer v then gens_to_json g else JNull)) else None.
Proof.
  intros k v g. unfold old_generators_written, generators_written. destruct (newer v), (gens_is_empty g); try (destruct (str_eqb k (S_ "generators")); reflexivity); apply last_one.
Qed.
Lemma old_generators_back : forall v g j, v <> SV4 -> old_generators_ok w v g ->
  json_get (S_ "generators") j = last_entry (S_ "generators") (old_generators_written v g) ->
  exists g', generators_read w j = Ok g' /\ same_old_generators v g g'.
Proof.
  intros v g j NV OK G. unfold old_generators_ok, same_old_generators in *. destruct (is_v3 v) eqn:V.
  - apply (generators_back w g j OK). rewrite G, last_old_generators, last_generators, !str_eqb_refl. destruct v; try discriminate; reflexivity.
  - exists []. split; [|reflexivity]. unfold generators_read, generators_from_json. rewrite G, last_old_generators, str_eqb_refl.
    destruct (gens_is_empty g); [reflexivity|]. destruct v; try discriminate; try reflexivity. congruence.
Qed.
Lemma old_query_back : forall v q, v <> SV4 -> old_query_ok v q -> exists l, old_query_written v q = Ok l /\
  (forall k, k <> S_ "query" -> last_entry k l = None) /\
  same_option same_map q (match last_entry (S_ "query") l with Some j => if is_v3 v then v3_query_from_json w j else query_from_json j | None => None end).
Proof.
  intros v [m|] NV OK; cbn [old_query_written old_query_ok] in *.
  2:{ exists []. split; [reflexivity|]. split; [reflexivity|exact I]. }
  assert (L : forall (j : json) k, k <> S_ "query" -> last_entry k [(S_ "query", j)] = None).
  { intros j k Nk. rewrite last_one. destruct (str_eqb_spec k (S_ "query")); [contradiction|reflexivity]. }
  destruct (is_v3 v) eqn:V.
  - assert (newer v = true) as -> by (destruct v; try discriminate; reflexivity). eexists. split; [reflexivity|]. split; [apply L|].
    rewrite last_one, str_eqb_refl. destruct (C41_v3_query_roundtrip w m OK) as (m' & -> & Sm). intro k. symmetry. apply Sm.
  - assert (newer v = false) as -> by (destruct v; try discriminate; try reflexivity; congruence).
    destruct (C26_query_roundtrip m OK) as (s & m' & -> & P & Sm). cbn [bind]. eexists. split; [reflexivity|]. split; [apply L|].
    rewrite last_one, str_eqb_refl. cbn [query_from_json]. rewrite P. intro k. symmetry. apply Sm.
Qed.

(** ** Requests and responses *)
Lemma old_request_back : forall v q, v <> SV4 -> old_request_ok w x v q -> exists j, old_request_to_json w x v (fst q) (snd q) = Ok j /\
  exists q', old_request_from_json w x v j = Ok q' /\ same_old_request w x v q q'.
Proof.
  intros v [r g] NV. unfold old_request_ok. cbn [fst snd]. intros (Me & Qu & He & Bo & Ru & Ge). unfold old_request_to_json.
  destruct (old_query_back v _ NV Qu) as (qs & -> & Qn & Qs). cbn [bind].
  destruct (old_rules_back v _ (Some (S_ "requestMatchingRules")) NV ltac:(intros d E; injection E as <-; discriminate) Ru) as (rs & -> & Rn & Rr). cbn [bind]. eexists. split; [reflexivity|].
  set (L := _ ++ qs ++ _). set (j := JObj (obj_of_list L)). unfold req_part in L.
  assert (F1 : json_get (S_ "method") j = Some (JStr (to_upper w (req_method r)))) by (subst j L; looked; rewrite last_old_body, last_old_generators, Rn, Qn by (assumption || discriminate); keys_decide; reflexivity).
  assert (F2 : json_get (S_ "path") j = Some (JStr (req_path r))) by (subst j L; looked; rewrite last_old_body, last_old_generators, Rn, Qn by (assumption || discriminate); keys_decide; reflexivity).
  assert (F3 : json_get (S_ "query") j = last_entry (S_ "query") qs).
  { subst j L; looked; rewrite last_old_body, last_old_generators, Rn by (assumption || discriminate); keys_decide. destruct (last_entry (S_ "query") qs); reflexivity. }
  assert (F4 : json_get (S_ "headers") j = option_map headers_to_json (req_headers r)).
  { subst j L; looked; rewrite last_old_body, last_old_generators, Rn, Qn by (assumption || discriminate); keys_decide. destruct (req_headers r); reflexivity. }
  assert (F5 : json_get (S_ "body") j = in_file never (header_type w x (req_headers r)) (req_body r)).
  { subst j L; looked; rewrite last_old_body, last_old_generators, Rn, Qn by (assumption || discriminate); keys_decide. destruct (in_file _ _ _); reflexivity. }
  assert (F6 : json_get (S_ "matchingRules") j = last_entry (S_ "matchingRules") rs).
  { subst j L; looked; rewrite last_old_body, last_old_generators, Qn by (assumption || discriminate); keys_decide. destruct (last_entry (S_ "matchingRules") rs); reflexivity. }
  assert (F7 : json_get (S_ "generators") j = last_entry (S_ "generators") (old_generators_written v g)).
  { subst j L; looked; rewrite last_old_body, last_old_generators, Rn, Qn by (assumption || discriminate); keys_decide. destruct (gens_is_empty g); reflexivity. }
  assert (F8 : json_get (S_ "requestMatchingRules") j = None).
  { subst j L; looked; rewrite last_old_body, last_old_generators, Rn, Qn by (assumption || discriminate); keys_decide. reflexivity. }
  clearbody j. clear L. unfold old_request_from_json.
  destruct (old_headers_back _ j He F4) as (h' & -> & Hs & Hd).
  destruct (old_body_reads never _ h' (req_body r) j (S_ "body") Hd Bo F5) as (b' & -> & Bb). cbn [bind].
  destruct (Rr j F6) as (m' & -> & Sm); [intros d E; injection E as <-; exact F8|]. cbn [bind].
  destruct (old_generators_back v g j NV Ge F7) as (g' & -> & Sg). cbn [bind].
  eexists. split; [reflexivity|]. unfold same_old_request. cbn [fst snd req_method req_path req_query req_headers req_body req_rules].
  rewrite F1, F2, F3. cbn [text_or_shown]. rewrite upper_twice by exact Me.
  repeat (match goal with |- _ /\ _ => split end); try reflexivity; try assumption.
Qed.
Lemma old_response_back : forall v q, v <> SV4 -> old_response_ok w x v q -> exists j, old_response_to_json w x v (fst q) (snd q) = Ok j /\
  exists q', old_response_from_json w x j = Ok q' /\ same_old_response w x v q q'.
Proof.
  intros v [r g] NV. unfold old_response_ok. cbn [fst snd]. intros (St & He & Bo & Ru & Ge). unfold old_response_to_json.
  destruct (old_rules_back v _ (Some (S_ "responseMatchingRules")) NV ltac:(intros d E; injection E as <-; discriminate) Ru) as (rs & -> & Rn & Rr). cbn [bind]. eexists. split; [reflexivity|].
  set (L := _ ++ optional _ _ _ ++ _). set (j := JObj (obj_of_list L)). unfold resp_part in L.
  assert (F1 : json_get (S_ "status") j = Some (JNum (PosInt (resp_status r)))) by (subst j L; looked; rewrite last_old_body, last_old_generators, Rn by (assumption || discriminate); keys_decide; reflexivity).
  assert (F4 : json_get (S_ "headers") j = option_map headers_to_json (resp_headers r)).
  { subst j L; looked; rewrite last_old_body, last_old_generators, Rn by (assumption || discriminate); keys_decide. destruct (resp_headers r); reflexivity. }
  assert (F5 : json_get (S_ "body") j = in_file never (header_type w x (resp_headers r)) (resp_body r)).
  { subst j L; looked; rewrite last_old_body, last_old_generators, Rn by (assumption || discriminate); keys_decide. destruct (in_file _ _ _); reflexivity. }
  assert (F6 : json_get (S_ "matchingRules") j = last_entry (S_ "matchingRules") rs).
  { subst j L; looked; rewrite last_old_body, last_old_generators by (assumption || discriminate); keys_decide. destruct (last_entry (S_ "matchingRules") rs); reflexivity. }
  assert (F7 : json_get (S_ "generators") j = last_entry (S_ "generators") (old_generators_written v g)).
  { subst j L; looked; rewrite last_old_body, last_old_generators, Rn by (assumption || discriminate); keys_decide. destruct (gens_is_empty g); reflexivity. }
  assert (F8 : json_get (S_ "responseMatchingRules") j = None).
  { subst j L; looked; rewrite last_old_body, last_old_generators, Rn by (assumption || discriminate); keys_decide. reflexivity. }
  clearbody j. clear L. unfold old_response_from_json. rewrite F1. cbn [bind]. rewrite N.mod_small by exact St.
  destruct (old_headers_back _ j He F4) as (h' & -> & Hs & Hd).
  destruct (old_body_reads never _ h' (resp_body r) j (S_ "body") Hd Bo F5) as (b' & -> & Bb). cbn [bind].
  destruct (Rr j F6) as (m' & -> & Sm); [intros d E; injection E as <-; exact F8|]. cbn [bind].
  destruct (old_generators_back v g j NV Ge F7) as (g' & -> & Sg). cbn [bind].
  eexists. split; [reflexivity|]. unfold same_old_response. cbn [fst snd resp_status resp_headers resp_body resp_rules].
  repeat (match goal with |- _ /\ _ => split end); try reflexivity; try assumption.
Qed.

(** ** Interactions *)
Lemma states_back : forall l, Forall (fun s => distinct (st_params s)) l -> Forall2 same_state l (map (state_from_json w) (map state_to_json l)).
Proof. intros l H. induction H as [|s l Hs _ IH]; [constructor|]. cbn [map]. constructor; [apply state_back, Hs|exact IH]. Qed.
Lemma http_back : forall v i, v <> SV4 -> http_ok w x v i -> exists j, http_to_json w x v i = Ok j /\
  forall index, exists i', http_from_json w x v index j = Ok i' /\ same_http w x v i i'.
Proof.
  intros v i NV (So & Qo & Po). unfold http_to_json.
  destruct (old_request_back v _ NV Qo) as (jq & -> & q' & Rq & Sq). destruct (old_response_back v _ NV Po) as (jp & -> & p' & Rp & Sp). cbn [bind].
  eexists. split; [reflexivity|]. intro index. set (j := JObj _).
  assert (O1 : forall k, k <> S_ "providerStates" -> k <> S_ "providerState" -> last_entry k (states_written v (h_states i)) = None).
  { intros k N1 N2. unfold states_written. destruct (h_states i); [reflexivity|]. destruct (is_v3 v); rewrite last_one;
      [destruct (str_eqb_spec k (S_ "providerStates"))|destruct (str_eqb_spec k (S_ "providerState"))]; try contradiction; reflexivity. }
  assert (G1 : json_get (S_ "description") j = Some (JStr (h_desc i))) by (subst j; rewrite get_of, last_entry_app, O1 by discriminate; reflexivity).
  assert (G2 : json_get (S_ "request") j = Some jq) by (subst j; rewrite get_of, last_entry_app, O1 by discriminate; reflexivity).
  assert (G3 : json_get (S_ "response") j = Some jp) by (subst j; rewrite get_of, last_entry_app, O1 by discriminate; reflexivity).
  assert (G4 : json_get (S_ "_id") j = None) by (subst j; rewrite get_of, last_entry_app, O1 by discriminate; reflexivity).
  assert (G5 : json_get (S_ "providerStates") j = last_entry (S_ "providerStates") (states_written v (h_states i))).
  { subst j. rewrite get_of, last_entry_app. destruct (last_entry (S_ "providerStates") (states_written v (h_states i))); reflexivity. }
  assert (G6 : json_get (S_ "providerState") j = last_entry (S_ "providerState") (states_written v (h_states i))).
  { subst j. rewrite get_of, last_entry_app. destruct (last_entry (S_ "providerState") (states_written v (h_states i))); reflexivity. }
  assert (G7 : json_get (S_ "provider_state") j = None) by (subst j; rewrite get_of, last_entry_app, O1 by discriminate; reflexivity).
  clearbody j. unfold http_from_json. rewrite G2, G3, Rq, Rp. cbn [bind]. eexists. split; [reflexivity|].
  unfold same_http. cbn [h_id h_desc h_states h_request h_response]. unfold string_at, described. rewrite G4, G1. cbn [option_map text_or_shown].
  repeat (match goal with |- _ /\ _ => split end); try reflexivity; try assumption.
  unfold states_from_json. rewrite G5, G6, G7. unfold same_old_states, old_states_ok in *. unfold states_written. destruct (is_v3 v).
  - destruct (h_states i) as [|s l]; [constructor|]. rewrite last_one, str_eqb_refl. apply states_back, So.
  - destruct (h_states i) as [|s l]; [reflexivity|]. rewrite !last_one. keys_decide. cbn [Http.or_else]. destruct (st_name s) as [|c n]; [congruence|reflexivity].
Qed.
End Parts.
