(** Properties C54, C55: messages; examples for C48-C53. *)
From Coq Require Import Ascii String List Arith NArith ZArith Lia Bool Sorted Permutation.
From Verif Require Import Base PathExp SpecPath PathExpProofs PropPath Json Text TextProofs MatchingRules Matchers JsonCompare
  Headers SpecQuery QueryProofs SpecHeaders HeaderProofs HeaderProofs2 PropHeaders SpecMatch CompareProofs CompareProofs2 PropMatch
  PropValues Query ContentType Http SpecHttp PropHttp PropGovern PropHttp2.
Import ListNotations.
Open Scope N_scope.
Local Opaque show_N.

(** ** C54: messages *)
(** The metadata keys that hold a content type. *)
Definition content_type_key (k : str) : Prop :=
  equal_ignoring_case k (S_ "contenttype") \/ equal_ignoring_case k (S_ "content-type").
Definition metadata_value_agrees (space : N -> bool) (k : str) (v v' : json) : Prop :=
  (content_type_key k /\ exists t t' e a, v = JStr t /\ v' = JStr t' /\ reads_as space e t /\ reads_as space a t' /\ structured_match e a) \/
  (~ content_type_key k /\ json_eqb v v' = true).
(** Every expected entry is there and agrees; other entries do not matter. *)
Definition metadata_agree (space : N -> bool) (E A : list (str * json)) : Prop :=
  forall k v, In (k, v) E -> exists v', entry k A = Some v' /\ metadata_value_agrees space k v v'.
(** Content types in the metadata are texts that can be read. *)
Definition readable_metadata (space : N -> bool) (m : list (str * json)) : Prop :=
  forall k v, In (k, v) m -> content_type_key k -> exists t h, v = JStr t /\ reads_as space h t.

Section Messages.
Variable w : world.
Variable x : externals.
Lemma content_type_key_iff : forall k,
  str_eqb (ascii_lower k) (S_ "contenttype") || str_eqb (ascii_lower k) (S_ "content-type") = true <-> content_type_key k.
Proof.
  intro k. unfold content_type_key, equal_ignoring_case. rewrite orb_true_iff, !str_eqb_eq.
  change (map ascii_lower_char (S_ "contenttype")) with (S_ "contenttype").
  change (map ascii_lower_char (S_ "content-type")) with (S_ "content-type").
  change (ascii_lower k) with (map ascii_lower_char k). reflexivity.
Qed.
Lemma parameter_header' : forall e a te ta, reads_as (is_space w) e te -> reads_as (is_space w) a ta ->
  (match_parameter_header w te ta = [] <-> structured_match e a).
Proof.
  intros e a te ta [Oe We] [Oa Wa]. rewrite <- (parameter_header w e a te ta Oe Oa We Wa).
  unfold match_parameter_header. rewrite !strip_trim. reflexivity.
Qed.
Lemma metadata_value_no_rules : forall k v v' c, no_rules c ->
  (content_type_key k -> exists t h, v = JStr t /\ reads_as (is_space w) h t) ->
  (content_type_key k -> exists t h, v' = JStr t /\ reads_as (is_space w) h t) ->
  (match_metadata_value w k v v' c = [] <-> metadata_value_agrees (is_space w) k v v').
Proof.
  intros k v v' c NR WE WA. unfold match_metadata_value, metadata_value_agrees. rewrite (no_rules_undefined c _ NR).
  pose proof (content_type_key_iff k) as CK. destruct (_ || _).
  - assert (content_type_key k) as K by (apply CK; reflexivity). destruct (WE K) as [t [h [-> R]]], (WA K) as [t' [h' [-> R']]].
    cbn [json_str_or_empty]. rewrite (parameter_header' h h' t t' R R'). split.
    + intro M. left. split; [exact K|]. exists t, t', h, h'. auto.
    + intros [[_ [u [u' [e [a [E1 [E2 [R1 [R2 M]]]]]]]]]|[NK _]]; [|contradiction]. injection E1 as <-. injection E2 as <-.
      apply (parameter_header' h h' t t' R R'), (parameter_header' e a t t' R1 R2), M.
  - assert (~ content_type_key k) as K by (intro Z; apply CK in Z; discriminate). cbn [json_matches].
    destruct (json_eqb v v'); split; intro H; try reflexivity; try discriminate; [right; auto|].
    destruct H as [[Z _]|[_ Z]]; [contradiction | discriminate].
Qed.
Theorem C54_metadata_without_rules : forall e a c, no_rules c ->
  readable_metadata (is_space w) (msg_metadata e) -> readable_metadata (is_space w) (msg_metadata a) ->
  (matched (match_message_metadata w e a c) <-> metadata_agree (is_space w) (msg_metadata e) (msg_metadata a)).
Proof.
  intros e a c NR RE RA. unfold match_message_metadata, matched, metadata_agree. split.
  - intros H k v I. specialize (H k (match obj_get k (msg_metadata a) with Some v' => match_metadata_value w k v v' c | None => [KAbsent] end)).
    rewrite (entry_get _ k (msg_metadata a)). destruct (obj_get k (msg_metadata a)) as [v'|] eqn:G.
    + exists v'. split; [reflexivity|]. apply (metadata_value_no_rules k v v' c NR); [exact (RE k v I) | exact (RA k v' (obj_get_in _ _ _ _ G))|].
      apply H. apply in_map_iff. exists (k, v). cbn [fst snd]. rewrite G. auto.
    + discriminate H. apply in_map_iff. exists (k, v). cbn [fst snd]. rewrite G. auto.
  - intros H k l I. apply in_map_iff in I as [[k' v] [E I]]. cbn [fst snd] in E. injection E as <- <-.
    destruct (H k' v I) as [v' [G V]]. rewrite (entry_get _ k' (msg_metadata a)) in G. rewrite G.
    apply (metadata_value_no_rules k' v v' c NR); [exact (RE k' v I) | exact (RA k' v' (obj_get_in _ _ _ _ G)) | exact V].
Qed.
Lemma flat_metadata : forall g : list (str * list mismatch_kind),
  flat_map (fun kv => map (MMetadata (fst kv)) (snd kv)) g = [] <-> matched g.
Proof.
  intro g. rewrite <- flat_matched. induction g as [|[k l] g IH]; [tauto|]. cbn [flat_map fst snd]. split; intro H;
    apply app_eq_nil in H as [H1 H2]; apply IH in H2; rewrite H2; [apply map_eq_nil in H1|]; rewrite H1; reflexivity.
Qed.
(** JSON messages without rules: the contents agree (extra keys allowed) and the expected metadata is there. *)
Theorem C54_json_message : forall e a ms eb ect eh ab act ah je ja, msg_rules e = [] ->
  readable_metadata (is_space w) (msg_metadata e) -> readable_metadata (is_space w) (msg_metadata a) ->
  msg_contents e = BPresent eb ect eh -> msg_contents a = BPresent ab act ah ->
  json_type (message_content_type w x e) -> message_content_type w x a = message_content_type w x e ->
  json_of_bytes x eb = Some je -> json_of_bytes x ab = Some ja -> json_wf je -> json_wf ja ->
  match_message w x e a = Ok ms ->
  (ms = [] <-> agrees true je ja /\ metadata_agree (is_space w) (msg_metadata e) (msg_metadata a)).
Proof.
  intros e a ms eb ect eh ab act ah je ja R RE RA Be Ba JT CT Je Ja We Wa H.
  unfold match_message in H. rewrite R in H. unfold ctx_for in H. cbn [rules_for] in H. set (c := mkCtx true (cat_empty CBody)) in *.
  assert (no_rules c) as NR by reflexivity.
  unfold match_message_contents in H. rewrite CT, C52_equivalence_is_reflexive in H.
  unfold msg_compare in H. rewrite Be, Ba in H. apply C52_json_types in JT. rewrite JT in H. cbn [negb andb] in H.
  unfold match_body_content in H. cbn [msg_part part_body] in H. rewrite Be, Ba in H. unfold compare_bodies, compare_bodies_core in H.
  rewrite JT in H. cbn [bind] in H. unfold match_json, body_bytes in H. cbn [msg_part part_body] in H. rewrite Be, Ba in H. cbn [body_value] in H. rewrite Je, Ja in H.
  rewrite <- (C54_metadata_without_rules e a c NR RE RA), <- flat_metadata.
  rewrite <- (compare_no_rules w c NR je ja path_root We Wa : compare_json w path_root je ja c = [] <-> agrees true je ja).
  injection H as <-. split.
  - intro E. apply app_eq_nil in E as [E1 E2]. split; [|exact E2]. destruct (compare_json w path_root je ja c) as [|m l] eqn:CJ; [reflexivity|].
    exfalso. cbn [body_mismatches] in E1. apply map_eq_nil in E1.
    pose proof (group_perm (m :: l) []) as P. cbn [flat_map app] in P. rewrite E1 in P. apply Permutation_nil in P. discriminate.
  - intros [-> ->]. reflexivity.
Qed.
(** Nothing is expected of the contents if the expected message has none. *)
Theorem C54_no_contents_expected : forall e a ms, msg_rules e = [] -> msg_contents e = BMissing ->
  readable_metadata (is_space w) (msg_metadata e) -> readable_metadata (is_space w) (msg_metadata a) ->
  match_message w x e a = Ok ms ->
  (ms = [] <-> metadata_agree (is_space w) (msg_metadata e) (msg_metadata a)).
Proof.
  intros e a ms R Be RE RA H. unfold match_message in H. rewrite R in H. unfold ctx_for in H. cbn [rules_for] in H.
  set (c := mkCtx true (cat_empty CBody)) in *. assert (no_rules c) as NR by reflexivity.
  assert (match_message_contents w x e a c = Ok []) as E.
  { unfold match_message_contents, msg_compare, match_body_content. cbn [msg_part part_body]. rewrite Be. cbn [body_present].
    destruct (is_equivalent_to _ _); reflexivity. }
  rewrite E in H. cbn [bind app] in H. injection H as <-. rewrite flat_metadata. apply C54_metadata_without_rules; assumption.
Qed.
(** Comparing multipart messages panics. *)
Theorem C54_multipart_panics : forall e a, body_present (msg_contents e) = true -> body_present (msg_contents a) = true ->
  main_type (message_content_type w x e) = S_ "multipart" ->
  is_equivalent_to (message_content_type w x e) (message_content_type w x a) = true ->
  match_message w x e a = Panic.
Proof.
  intros e a Be Ba M EQ. unfold match_message, match_message_contents. rewrite EQ.
  assert (is_json (message_content_type w x e) = false) as J by (unfold is_json, main_is; rewrite M; reflexivity).
  assert (is_xml (message_content_type w x e) = false) as X by (unfold is_xml, main_is; rewrite M; reflexivity).
  unfold msg_compare. destruct (msg_contents e), (msg_contents a); try discriminate. rewrite J, X. unfold main_is. rewrite M. reflexivity.
Qed.

(** ** C55: synchronous messages *)
Lemma match_each_ok : forall es as_ ms, length es = length as_ -> match_each w x es as_ = Ok ms ->
  (ms = [] <-> Forall2 (fun e a => match_message w x e a = Ok []) es as_).
Proof.
  induction es as [|e es IH]; destruct as_ as [|a as_]; intros ms L H; try discriminate; cbn [match_each] in H.
  - injection H as <-. split; [constructor | reflexivity].
  - destruct (match_message w x e a) as [m| |] eqn:M; try discriminate. cbn [bind] in H.
    destruct (match_each w x es as_) as [r| |] eqn:R; try discriminate. cbn [bind] in H. injection H as <-.
    injection L as L. specialize (IH as_ r L R). split.
    + intro E. apply app_eq_nil in E as [-> E]. constructor; [exact M | apply IH, E].
    + intro F. inversion F as [|? ? ? ? M' F']; subst. rewrite M in M'. injection M' as ->. apply IH in F'. rewrite F'. reflexivity.
Qed.
Theorem C55_sync_messages : forall e a ms, snd e <> [] -> match_sync_message w x e a = Ok ms ->
  (ms = [] <-> match_message w x (fst e) (fst a) = Ok [] /\
               Forall2 (fun e a => match_message w x e a = Ok []) (snd e) (snd a)).
Proof.
  intros [e es] [a as_] ms NE H. cbn [fst snd] in *. unfold match_sync_message in H. cbn [fst snd] in H.
  destruct (match_message w x e a) as [m| |] eqn:M; try discriminate. cbn [bind] in H.
  unfold match_sync_responses in H. destruct (Nat.eqb_spec (length es) (length as_)) as [L|L].
  - destruct (match_each w x es as_) as [r| |] eqn:R; try discriminate. cbn [bind] in H. injection H as <-.
    rewrite <- (match_each_ok es as_ r L R). split.
    + intro E. apply app_eq_nil in E as [-> ->]. auto.
    + intros [E ->]. injection E as ->. reflexivity.
  - destruct es as [|e1 es]; [congruence|]. cbn [nonempty bind] in H. injection H as <-. split.
    + intro E. apply app_eq_nil in E as [_ E]. discriminate.
    + intros [_ F]. exfalso. apply L. clear -F. induction F; cbn [length]; congruence.
Qed.
(** Without expected responses any responses are accepted. *)
Theorem C55_no_expected_responses : forall e a, match_message w x (fst e) (fst a) = Ok [] -> snd e = [] ->
  match_sync_message w x e a = Ok [].
Proof.
  intros [e es] [a as_] M E. cbn [fst snd] in *. subst es. unfold match_sync_message. cbn [fst snd]. rewrite M. cbn [bind].
  destruct as_; reflexivity.
Qed.
End Messages.

(** ** Cases that meet the hypotheses *)
Definition ex_json_type : content_type := mkCT (S_ "application") (S_ "json") [] None.
Definition ex_text_type : content_type := mkCT (S_ "text") (S_ "plain") [] None.
Definition ex_form_type : content_type := mkCT (S_ "application") (S_ "x-www-form-urlencoded") [] None.
(** Externals that read one JSON document, one form and a few content types. *)
Definition ex_ext : externals := mkExt
  (fun s => if str_eqb s (S_ "application/json") then Some ex_json_type
            else if str_eqb s (S_ "application/x-www-form-urlencoded") then Some ex_form_type else None)
  (fun _ => ex_text_type) (fun _ => None)
  (fun b => if str_eqb b (S_ "{}") then Some ex_doc else None)
  (fun b => if str_eqb b (S_ "a=1&b=2&a=3") then Some [(S_ "a", S_ "1"); (S_ "b", S_ "2"); (S_ "a", S_ "3")]
            else if str_eqb b (S_ "b=2&a=1&a=3") then Some [(S_ "b", S_ "2"); (S_ "a", S_ "1"); (S_ "a", S_ "3")] else None)
  (fun _ _ => true) (fun _ _ _ => []) (fun _ _ _ _ _ => []).
Definition ex_headers : hmap := [(S_ "Content-Type", [S_ "application/json"]); (S_ "X", [S_ "1"; S_ "2"])].
Definition ex_request : request :=
  mkReq (S_ "POST") (S_ "/a") (Some [(S_ "q", [Some (S_ "1"); None])]) (Some ex_headers) (BPresent (S_ "{}") None None) [].
Definition ex_actual : request :=
  mkReq (S_ "post") (S_ "/a") (Some [(S_ "q", [Some (S_ "1"); Some []])])
    (Some [(S_ "Host", [S_ "h"]); (S_ "x", [S_ " 1"; S_ "2"]); (S_ "content-type", [S_ "application/json;charset=utf-8"])])
    (BPresent (S_ "{}") (Some ex_json_type) None) [].
Lemma ex_reads : forall w, reads_as (is_space w) (mkStructured (S_ "application/json") []) (S_ "application/json") /\
  reads_as (is_space w) (mkStructured (S_ "application/json") [(S_ "charset", S_ "utf-8")]) (S_ "application/json;charset=utf-8").
Proof.
  intro w. split; (split; [unfold structured_ok; cbn [media params]; split; [discriminate|]; split; [vm_compute; intuition lia|];
    split; [apply unpadded_check; reflexivity|]; intros n v I |]).
  - destruct I.
  - exists (S_ "application/json"), []. split; [exists [], []; repeat split | split; [constructor | reflexivity]].
  - destruct I as [E|[]]; injection E as <- <-.
    split; [vm_compute; intuition lia|]; split; [vm_compute; intuition lia|]; split; [vm_compute; intuition lia|]; split; apply unpadded_check; reflexivity.
  - exists (S_ "application/json"), [S_ "charset=utf-8"]. split; [exists [], []; repeat split|]. split; [|reflexivity].
    constructor; [|constructor]. exists (S_ "charset"), (S_ "utf-8"). split; [exists [], []; repeat split | split; [exists [], []; repeat split | reflexivity]].
Qed.
Example C48_example : forall w,
  req_rules ex_request = [] /\ one_entry_each (req_query ex_request) /\ one_entry_each (req_query ex_actual) /\
  part_unique (to_lower w) (req_headers ex_actual) /\
  part_readable (is_space w) (to_lower w) (req_headers ex_request) /\ part_readable (is_space w) (to_lower w) (req_headers ex_actual) /\
  json_type (part_content_type w ex_ext (req_part ex_request)) /\
  part_content_type w ex_ext (req_part ex_actual) = part_content_type w ex_ext (req_part ex_request) /\
  json_of_bytes ex_ext (S_ "{}") = Some ex_doc /\ json_wf ex_doc /\
  exists r, match_request w ex_ext ex_request ex_actual = Ok r /\ all_matched r = true /\ mismatches r = [].
Proof.
  intro w. split; [reflexivity|]. split; [repeat constructor; intros []|]. split; [repeat constructor; intros []|].
  split; [unfold part_unique, unique_names; repeat constructor; vm_compute; intuition discriminate|].
  split; [|split; [|split; [|split; [|split; [|split]]]]].
  - intros k vs v [E|[E|[]]] SN I; injection E as <- <-.
    + destruct I as [<-|[]]. eexists. apply ex_reads.
    + exfalso. destruct SN as [SN|SN]; vm_compute in SN; discriminate.
  - intros k vs v [E|[E|[E|[]]]] SN I; injection E as <- <-.
    + exfalso. destruct SN as [SN|SN]; vm_compute in SN; discriminate.
    + exfalso. destruct SN as [SN|SN]; vm_compute in SN; discriminate.
    + destruct I as [<-|[]]. eexists. apply ex_reads.
  - apply C52_json_types. vm_compute. reflexivity.
  - vm_compute. reflexivity.
  - reflexivity.
  - exact ex_doc_wf.
  - eexists. split; [vm_compute; reflexivity|]. split; vm_compute; reflexivity.
Qed.
Example C24_example : forall w, exists r,
  match_request w ex_ext ex_request (mkReq (S_ "POST") (S_ "/b") None None BMissing []) = Ok r /\
  all_matched r = false /\ method_or_path_mismatch r = true /\ length (mismatches r) = 5%nat.
Proof. intro w. eexists. split; [vm_compute; reflexivity|]. split; [|split]; vm_compute; reflexivity. Qed.
Example C49_example : forall w,
  match_response w ex_ext (mkResp 200 (Some [(S_ "X", [S_ "1"])]) (BPresent (S_ "{}") (Some ex_json_type) None) [])
    (mkResp 200 (Some [(S_ "x", [S_ "1 "]); (S_ "Y", [])]) (BPresent (S_ "{}") (Some ex_json_type) None) []) = Ok [].
Proof. intro w. vm_compute. reflexivity. Qed.
Example C51_example : forall w, other_type ex_ext ex_text_type /\ is_text ex_text_type = true /\
  match_body w ex_ext (mkPart None (BPresent (S_ "abc") (Some ex_text_type) None)) (mkPart None (BPresent (S_ "abc") (Some ex_text_type) None))
    (mkCtx false (mkCat CBody [])) (mkCtx false (mkCat CHeader [])) = Ok BodyOk.
Proof.
  intro w. split; [|split; vm_compute; reflexivity]. split; [|split; [|split]].
  - intro H. apply C52_json_types in H. discriminate.
  - intro H. apply C52_xml_types in H. discriminate.
  - discriminate.
  - discriminate.
Qed.
Example C53_example : forall w, form_type ex_form_type /\
  parse_mime ex_ext (S_ "application/x-www-form-urlencoded") = Some (base_type ex_form_type) /\
  match_body w ex_ext (mkPart None (BPresent (S_ "a=1&b=2&a=3") (Some ex_form_type) None)) (mkPart None (BPresent (S_ "b=2&a=1&a=3") (Some ex_form_type) None))
    (mkCtx false (mkCat CBody [])) (mkCtx false (mkCat CHeader [])) = Ok BodyOk.
Proof. intro w. split; [split; reflexivity|]. split; [reflexivity|]. vm_compute. reflexivity. Qed.
Example C54_example : forall w,
  let m := mkMsg (BPresent (S_ "{}") (Some ex_json_type) None) [(S_ "k", JBool true); (S_ "contentType", JStr (S_ "application/json"))] [] in
  readable_metadata (is_space w) (msg_metadata m) /\ match_message w ex_ext m m = Ok [] /\ match_sync_message w ex_ext (m, [m; m]) (m, [m; m]) = Ok [].
Proof.
  intros w m. split; [|split; vm_compute; reflexivity]. intros k v [E|[E|[]]] CK; injection E as <- <-.
  - exfalso. destruct CK as [CK|CK]; vm_compute in CK; discriminate.
  - exists (S_ "application/json"), (mkStructured (S_ "application/json") []). split; [reflexivity | apply ex_reads].
Qed.
