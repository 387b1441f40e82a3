(** C88: the text printed for an interaction. *)
From Coq Require Import Ascii String List Arith NArith ZArith Lia Bool.
From Verif Require Import Base PathExp Json Text MatchingRules Matchers JsonCompare Headers Query ContentType Http Merge VerifierClient Verifier Report SpecReport.
Import ListNotations.
Open Scope N_scope.
Local Opaque show_N.

Lemma says_word : forall (P : Prop) b, (b = true <-> P) -> says P (word b).
Proof. intros P [] H; [left; split; [apply H|]; reflexivity|right; split; [intro X; apply H in X; discriminate|reflexivity]]. Qed.

Section Report.
Variable w : world.
Variable x : externals.
Variable message : error_kind -> str.

Lemma http_shape : forall r sf (hf : str -> bool) bf (SF BF : Prop) (HF : str -> Prop), (sf = true <-> SF) -> (bf = true <-> BF) ->
  (forall h k vs, resp_headers r = Some h -> In (k, vs) h -> (hf k = true <-> HF k)) ->
  response_report r SF HF BF (display_http (resp_status r) sf (option_map (map (fun kv => (kv, hf (fst kv)))) (resp_headers r)) bf).
Proof.
  intros r sf hf bf SF BF HF Hs Hb Hh. unfold display_http, response_report, status_line, body_line.
  eexists (word sf), _, (word bf). split; [reflexivity|]. split; [apply says_word, Hs|]. split; [apply says_word, Hb|].
  destruct (resp_headers r) as [h|]; [|reflexivity]. cbn [option_map]. eexists. split; [reflexivity|].
  specialize (Hh h). assert (G : forall k vs, In (k, vs) h -> hf k = true <-> HF k) by (intros; apply (Hh k vs eq_refl); assumption). clear Hh.
  induction h as [|[k vs] h IH]; [constructor|]. cbn [map]. constructor.
  - cbn [fst snd]. exists (word (hf k)). split; [unfold header_line, quoted; rewrite <- !app_assoc; reflexivity|]. apply says_word, (G k vs). left. reflexivity.
  - apply IH. intros. apply (G k0 vs0). right. assumption.
Qed.

(** C88: what is printed of a response says exactly which kinds of mismatches the comparison gave. *)
Theorem C88_mismatches : forall r ms id,
  response_report r (exists k, In (MStatus k) ms) (fun k => exists m, In (MHeader m) ms /\ mm_path m = k) (exists m, In m ms /\ (m = MBodyType \/ exists b, m = MBody b))
    (report_http message r (Some (RMismatches ms id))).
Proof.
  intros r ms id. unfold report_http. apply http_shape with (hf := fun k => existsb (is_header k) ms).
  - rewrite existsb_exists. split; [intros (m & I1 & H); destruct m; try discriminate; eauto|intros (k & H); eexists; split; [exact H|reflexivity]].
  - rewrite existsb_exists. split; [intros (m & I1 & H); exists m; split; [exact I1|]; destruct m; try discriminate; eauto|].
    intros (m & I1 & [-> | (b & ->)]); eexists; (split; [exact I1|reflexivity]).
  - intros h k vs _ _. rewrite existsb_exists. split.
    + intros (m & I1 & H). destruct m as [| | | |m| | |]; try discriminate. cbn in H. destruct (str_eqb_spec k (mm_path m)); [|discriminate]. eauto.
    + intros (m & I1 & H). exists (MHeader m). split; [exact I1|]. cbn. rewrite H. apply str_eqb_refl.
Qed.
(** C88: an interaction that passed has nothing but OK; one that could not be verified says why. *)
Theorem C88_passed : forall r, response_report r False (fun _ => False) False (report_http message r None).
Proof. intro r. unfold report_http. apply (http_shape r false (fun _ => false) false); intros; split; [discriminate|tauto|discriminate|tauto|discriminate|tauto]. Qed.
Theorem C88_error : forall r k id, report_http message r (Some (RError k id)) = [S_ "      Request Failed - " ++ message k].
Proof. reflexivity. Qed.

(** ** With the comparison *)
Lemma header_elements_key : forall key c e a i m, In m (header_elements w key c i e a) -> mm_path m = key.
Proof.
  intros key c. induction e as [|v e IH]; intros a i m H; [contradiction|]. cbn [header_elements] in H. destruct a as [|y a].
  - destruct H as [<-|H]; [reflexivity|exact (IH _ _ _ H)].
  - apply in_app_iff in H. destruct H as [H|H]; [|exact (IH _ _ _ H)]. unfold match_header_value in H. apply in_map_iff in H. destruct H as (k & <- & _). reflexivity.
Qed.
Lemma entry_key : forall h c k vs m, In m (match_header_entry w h c k vs) ->
  (forall vs', find_header w h k = Some vs' -> ~ (length vs = 1 /\ length vs' = 1)%nat -> ctx_matcher_is_defined c (join path_root (to_lower w k)) = true -> False) ->
  mm_path m = k.
Proof.
  intros h c k vs m H N. unfold match_header_entry in H. destruct (find_header w h k) as [vs'|]; [|destruct H as [<-|[]]; reflexivity].
  specialize (N vs' eq_refl).
  destruct (negb (nonempty vs) && nonempty vs'); [destruct H as [<-|[]]; reflexivity|].
  assert (G : In m (header_elements w k c 0 (pad_values vs (length vs')) vs') -> mm_path m = k) by apply header_elements_key.
  assert (M : forall i a b, In m (match_header_value w k i a b c) -> mm_path m = k).
  { intros i a b X. unfold match_header_value in X. apply in_map_iff in X. destruct X as (kk & <- & _). reflexivity. }
  set (cc := compare_lists_with_matchingrules _ _ _ _ _ _ _ _ _) in H. clearbody cc.
  destruct vs as [|v1 [|v2 vs]], vs' as [|v1' [|v2' vs']]; try exact (M _ _ _ H);
    (destruct (ctx_matcher_is_defined c (join path_root (to_lower w k))); [exfalso; apply N; [cbn; lia|reflexivity]|exact (G H)]).
Qed.
(** C88: for a response the provider gave, each part says FAILED if and only if that part did not match, provided no header with several values
    has a rule of its own. *)
Theorem C88_response : forall e a ms id,
  match_response w x e a = Ok ms ->
  (forall h k vs, resp_headers e = Some h -> In (k, vs) h -> ~ compared_as_collection w e a k vs) ->
  response_report e (match_status w (resp_status e) (resp_status a) (rules_for CStatus (resp_rules e)) <> [])
    (header_mismatched w e a)
    (exists b, match_body w x (resp_part e) (resp_part a) (ctx_for true CBody (resp_rules e)) (header_context w (ctx_for false CHeader (resp_rules e))) = Ok b /\ body_mismatches b <> [])
    (report_http message e (outcome_of id ms)).
Proof.
  intros e a ms id H N. unfold match_response in H. destruct (match_body w x _ _ _ _) as [b| |] eqn:B; try discriminate. cbn [bind] in H. injection H as H.
  set (ss := match_status _ _ _ _) in *. unfold header_mismatched. set (hs := match_headers _ _ _ _) in *.
  assert (BM : (exists b0, @Ok body_result unit b = Ok b0 /\ body_mismatches b0 <> []) <-> body_mismatches b <> []).
  { split; [intros (b0 & E & X); injection E as <-; exact X|eauto]. }
  assert (BK : forall m, In m (body_mismatches b) -> is_body m = true).
  { intros m I1. destruct b; cbn [body_mismatches] in I1; [contradiction|destruct I1 as [<-|[]]; reflexivity|]. apply in_map_iff in I1. destruct I1 as (? & <- & _). reflexivity. }
  assert (HK : forall k kms m, In (k, kms) hs -> In m kms -> mm_path m = k).
  { intros k kms m I1 I2. unfold hs, match_headers in I1. destruct (resp_headers a) as [ha|] eqn:Ha, (resp_headers e) as [he|] eqn:He; try contradiction.
    - unfold match_header_maps in I1. apply in_map_iff in I1. destruct I1 as ([k0 vs0] & E & I1). cbn [fst snd] in E. injection E as <- <-.
      apply (entry_key _ _ _ _ _ I2). intros vs' F1 F2 F3. apply (N he k0 vs0 eq_refl I1). exists ha, vs'. auto.
    - apply in_map_iff in I1. destruct I1 as ([k0 vs0] & E & I1). injection E as <- <-. destruct I2 as [<-|[]]. reflexivity. }
  assert (NE : forall A (l : list A), l <> [] <-> exists v, In v l) by (intros A [|v l]; split; [congruence|intros (v & [])|exists v; left; reflexivity|discriminate]).
  assert (G1 : forall k, In (MStatus k) ms <-> In k ss).
  { intro k. rewrite <- H, !in_app_iff. split; [|intro I1; right; left; apply in_map, I1]. intros [I1|[I1|I1]].
    - apply BK in I1. discriminate.
    - apply in_map_iff in I1. destruct I1 as (k' & E & I1). injection E as <-. exact I1.
    - apply in_map_iff in I1. destruct I1 as (k' & E & I1). discriminate. }
  assert (G2 : forall m, In (MHeader m) ms <-> exists k kms, In (k, kms) hs /\ In m kms).
  { intro m. rewrite <- H, !in_app_iff. split.
    - intros [I1|[I1|I1]]; [apply BK in I1; discriminate|apply in_map_iff in I1; destruct I1 as (k' & E & I1); discriminate|].
      apply in_map_iff in I1. destruct I1 as (m' & E & I1). injection E as ->. apply in_flat_map in I1. destruct I1 as ([k kms] & I1 & I2). eauto.
    - intros (k & kms & I1 & I2). right. right. apply in_map, in_flat_map. exists (k, kms). auto. }
  assert (G3 : forall m, In m ms /\ is_body m = true <-> In m (body_mismatches b)).
  { intro m. rewrite <- H, !in_app_iff. split; [|intro I1; split; [auto|exact (BK m I1)]]. intros ([I1|[I1|I1]] & Hb); [exact I1| |];
      apply in_map_iff in I1; destruct I1 as (? & <- & _); discriminate. }
  assert (GS : existsb is_status ms = true <-> ss <> []).
  { rewrite existsb_exists, NE. split; [intros (m & I1 & X); destruct m; try discriminate; eexists; apply G1, I1|intros (k & I1); exists (MStatus k); split; [apply G1, I1|reflexivity]]. }
  assert (GB : existsb is_body ms = true <-> exists b0, @Ok body_result unit b = Ok b0 /\ body_mismatches b0 <> []).
  { rewrite BM, existsb_exists, NE. split; intros (m & X); exists m; [apply G3, X|apply G3 in X; exact X]. }
  assert (GH : forall k, existsb (is_header k) ms = true <-> exists kms, In (k, kms) hs /\ kms <> []).
  { intro k. rewrite existsb_exists. split.
    - intros (m & I1 & X). destruct m as [| | | |m| | |]; try discriminate. cbn in X. destruct (str_eqb_spec k (mm_path m)) as [->|]; [|discriminate].
      apply G2 in I1. destruct I1 as (k' & kms & I1 & I2). assert (E := HK _ _ _ I1 I2). exists kms. rewrite E. split; [exact I1|]. apply NE. eauto.
    - intros (kms & I1 & X). apply NE in X. destruct X as (m & I2). exists (MHeader m). split; [apply G2; eauto|]. cbn. rewrite (HK _ _ _ I1 I2). apply str_eqb_refl. }
  clear H. destruct ms as [|m0 ms0]; cbn [outcome_of]; unfold report_http.
  - apply (http_shape e false (fun _ => false) false); [exact GS|exact GB|]. intros h k vs _ _. apply GH.
  - apply (http_shape e _ (fun k => existsb (is_header k) (m0 :: ms0)) _); [exact GS|exact GB|]. intros h k vs _ _. apply GH.
Qed.

(** ** Messages *)
Lemma message_shape : forall md (mf : str -> bool) bf (BF : Prop) (MF : str -> Prop), (bf = true <-> BF) -> (forall k v, In (k, v) md -> (mf k = true <-> MF k)) ->
  message_report w md MF BF (display_message w bf (map (fun kv => (kv, mf (fst kv))) md)).
Proof.
  intros md mf bf BF MF Hb Hm. unfold display_message, message_report, body_line. eexists _, (word bf). split; [reflexivity|]. split; [apply says_word, Hb|].
  split; [intros ->; reflexivity|]. intro NE. destruct md as [|kv0 md]; [contradiction|]. eexists. split; [reflexivity|]. clear NE.
  change ((kv0, mf (fst kv0)) :: map (fun kv => (kv, mf (fst kv))) md) with (map (fun kv => (kv, mf (fst kv))) (kv0 :: md)). revert Hm. generalize (kv0 :: md). clear. intros l Hm.
  induction l as [|[k v] l IH]; [constructor|]. cbn [map]. constructor.
  - cbn [fst snd]. exists (word (mf k)). split; [unfold metadata_line, quoted; rewrite <- !app_assoc; reflexivity|]. apply says_word, (Hm k v). left. reflexivity.
  - apply IH. intros. apply (Hm k0 v0). right. assumption.
Qed.
(** C88: for a message, each part says FAILED if and only if it did not match. *)
Theorem C88_message : forall e a ms id, match_message w x e a = Ok ms ->
  message_report w (msg_metadata e)
    (fun k => exists ks, In (k, ks) (match_message_metadata w e a (ctx_for true CMetadata (msg_rules e))) /\ ks <> [])
    (exists b, match_message_contents w x e a (ctx_for true CBody (msg_rules e)) = Ok b /\ b <> [])
    (report_message w message e (outcome_of id ms)).
Proof.
  intros e a ms id H. unfold match_message in H. destruct (match_message_contents w x e a _) as [b| |] eqn:B; try discriminate. cbn [bind] in H. injection H as H.
  set (mds := match_message_metadata _ _ _ _) in *.
  assert (BK : forall m, In m b -> is_body m = true).
  { intros m I1. unfold match_message_contents in B. destruct (is_equivalent_to _ _).
    - destruct (msg_compare _ _ _ _ _ _) as [r| |]; try discriminate. cbn [bind] in B. injection B as <-. destruct r; cbn [body_mismatches] in I1; [contradiction|destruct I1 as [<-|[]]; reflexivity|].
      apply in_map_iff in I1. destruct I1 as (? & <- & _). reflexivity.
    - destruct (body_present _); injection B as <-; [destruct I1 as [<-|[]]; reflexivity|contradiction]. }
  assert (NE : forall A (l : list A), l <> [] <-> exists v, In v l) by (intros A [|v l]; split; [congruence|intros (v & [])|exists v; left; reflexivity|discriminate]).
  assert (GB : existsb is_body ms = true <-> exists b0, @Ok (list request_mismatch) unit b = Ok b0 /\ b0 <> []).
  { rewrite existsb_exists. split.
    - intros (m & I1 & X). rewrite <- H in I1. apply in_app_iff in I1. destruct I1 as [I1|I1]; [exists b; split; [reflexivity|apply NE; eauto]|].
      apply in_flat_map in I1. destruct I1 as (kv & _ & I1). apply in_map_iff in I1. destruct I1 as (? & <- & _). discriminate.
    - intros (b0 & E & X). injection E as <-. apply NE in X. destruct X as (m & I1). exists m. split; [rewrite <- H; apply in_app_iff; auto|exact (BK m I1)]. }
  assert (GM : forall k, existsb (is_metadata k) ms = true <-> exists ks, In (k, ks) mds /\ ks <> []).
  { intro k. rewrite existsb_exists. split.
    - intros (m & I1 & X). rewrite <- H in I1. apply in_app_iff in I1. destruct I1 as [I1|I1]; [apply BK in I1; destruct m; discriminate|].
      apply in_flat_map in I1. destruct I1 as ([k' ks] & I2 & I1). apply in_map_iff in I1. destruct I1 as (kk & <- & I1). cbn [fst snd is_metadata] in *.
      destruct (str_eqb_spec k k') as [->|]; [|discriminate]. exists ks. split; [exact I2|]. apply NE. eauto.
    - intros (ks & I1 & X). apply NE in X. destruct X as (kk & I2). exists (MMetadata k kk). split; [|apply str_eqb_refl]. rewrite <- H. apply in_app_iff. right.
      apply in_flat_map. exists (k, ks). split; [exact I1|]. apply in_map, I2. }
  clear H. destruct ms as [|m0 ms0]; cbn [outcome_of]; unfold report_message.
  - apply (message_shape _ (fun _ => false) false); [exact GB|]. intros k v _. apply GM.
  - apply (message_shape _ (fun k => existsb (is_metadata k) (m0 :: ms0)) _); [exact GB|]. intros k v _. apply GM.
Qed.
End Report.

(** (why) A header with several values and a rule: too few values are reported under another name, so the header says OK, and every line does,
    although the interaction failed. *)
Definition why_expected : response :=
  mkResp 200 (Some [(S_ "id", [S_ "1"; S_ "2"; S_ "3"; S_ "4"])]) BMissing
    [(CHeader, mkCat CHeader [(push_field path_root (S_ "id"), mkRules [RMinType 2] And false)])].
Theorem C88_why_collections : forall w x message id, exists ms, match_response w x why_expected (mkResp 200 (Some [(S_ "id", [S_ "1"])]) BMissing []) = Ok ms /\ ms <> [] /\
  report_http message why_expected (outcome_of id ms) = report_http message why_expected None.
Proof. intros. eexists. split; [vm_compute; reflexivity|]. split; [discriminate|reflexivity]. Qed.
(** A response with a wrong status and one wrong header, and a message. *)
Example C88_example : forall w x message, exists ms lines, 
  match_response w x (mkResp 200 (Some [(S_ "a", [S_ "1"]); (S_ "b", [S_ "2"; S_ "3"])]) BMissing []) (mkResp 404 (Some [(S_ "a", [S_ "1"]); (S_ "b", [S_ "2"; S_ "4"])]) BMissing []) = Ok ms /\
  report_http message (mkResp 200 (Some [(S_ "a", [S_ "1"]); (S_ "b", [S_ "2"; S_ "3"])]) BMissing []) (outcome_of None ms) = lines /\
  lines = [S_ "    returns a response which"; S_ "      has status code 200 (FAILED)"; S_ "      includes headers"; S_ "        ""a"" with value ""1"" (OK)";
           S_ "        ""b"" with value ""2, 3"" (FAILED)"; S_ "      has a matching body (OK)"] /\
  ~ compared_as_collection w (mkResp 200 (Some [(S_ "a", [S_ "1"]); (S_ "b", [S_ "2"; S_ "3"])]) BMissing []) (mkResp 404 (Some [(S_ "a", [S_ "1"]); (S_ "b", [S_ "2"; S_ "4"])]) BMissing []) (S_ "b") [S_ "2"; S_ "3"].
Proof.
  intros. eexists _, _. split; [vm_compute; reflexivity|]. split; [reflexivity|]. split; [vm_compute; reflexivity|].
  intros (h & vs' & _ & _ & _ & H). vm_compute in H. discriminate.
Qed.
Example C88_message_example : forall w x message, exists ms,
  match_message w x (mkMsg BMissing [(S_ "k", JStr (S_ "v")); (S_ "q", JBool true)] []) (mkMsg BMissing [(S_ "k", JStr (S_ "u")); (S_ "q", JBool true)] []) = Ok ms /\
  report_message w message (mkMsg BMissing [(S_ "k", JStr (S_ "v")); (S_ "q", JBool true)] []) (outcome_of None ms) =
    [S_ "    generates a message which"; S_ "      includes metadata"; S_ "        ""k"" with value ""v"" (FAILED)"; S_ "        ""q"" with value true (OK)";
     S_ "      has a matching body (OK)"].
Proof. intros. eexists. split; vm_compute; reflexivity. Qed.
