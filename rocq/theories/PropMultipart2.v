(** Property C105, continued: consequences of [C105_multipart]. *)
From Coq Require Import Ascii String List Arith NArith ZArith Lia Bool.
From Verif Require Import Base PathExp SpecPath PropPath Json Text MatchingRules SpecRules PropRules Matchers JsonCompare SpecMatch CompareProofs PropMatch SpecValues
  SpecBody BodyProofs PropBody Headers Query ContentType Http SpecHttp PropHttp PropHttp2 Xml SpecXml PropXml Base64 Multipart SpecMultipart PropMultipart PropPattern3 PropEngine2.
Import ListNotations.
Open Scope N_scope.
Local Opaque show_N.

(** ** The parts of a body *)
(** C105: a part is a field when it has a content disposition and no file name; every other part is a file. *)
Theorem C105_fields_and_files : forall f,
  mp_is_file (to_part f) = false <-> (exists v, first_value (S_ "content-disposition") (fd_headers f) = Some v) /\ fd_file_name f = None.
Proof.
  intro f. unfold to_part. cbn [mp_is_file]. destruct (first_value _ _) as [v|]; [destruct (fd_file_name f)|]; split; try discriminate.
  - intros [_ E]; discriminate E.
  - intros _. split; [exists v; reflexivity|reflexivity].
  - reflexivity.
  - intros [[v E] _]; discriminate E.
Qed.
Theorem C105_part_data : forall f, mp_index (to_part f) = fd_index f /\ mp_data (to_part f) = fd_data f /\ mp_headers (to_part f) = fd_headers f /\
  (forall n, fd_name f = Some n -> mp_name (to_part f) = n) /\ (fd_name f = None -> mp_name (to_part f) = []) /\
  (mp_is_file (to_part f) = true -> mp_type (to_part f) = fd_type f).
Proof.
  intro f. unfold to_part. cbn [mp_index mp_data mp_headers mp_name mp_is_file mp_type]. repeat split.
  - intros n ->. reflexivity.
  - intros ->. reflexivity.
  - intros ->. reflexivity.
Qed.
(** C105: without a content type header the body cannot be read. *)
Theorem C105_needs_content_type : forall w sp b h, (forall m k vs, h = Some m -> In (k, vs) m -> to_lower w k <> S_ "content-type") ->
  parse_multipart w sp b h = None.
Proof.
  intros w sp b h H. unfold parse_multipart, type_value. destruct h as [m|]; [|reflexivity].
  assert (flat_map (fun kv => if header_name_ok sp (fst kv) && str_eqb (to_lower w (fst kv)) (S_ "content-type")
                                    then filter (header_value_ok sp) (snd kv) else []) m = []) as ->; [|reflexivity].
  apply flat_map_nil. intros [k vs] I. cbn [fst snd]. destruct (str_eqb_spec (to_lower w k) (S_ "content-type")) as [E|_].
  - destruct (H m k vs eq_refl I E).
  - rewrite andb_false_r. reflexivity.
Qed.
(** How a body is read: by the first valid value of the content type header, whatever the case of its name; the parts come in the
    order in which they are written. *)
Theorem C105_parts_read : forall w sp b before k bad ct others after fs,
  (forall k' vs, In (k', vs) before -> to_lower w k' <> S_ "content-type") ->
  header_name_ok sp k = true -> to_lower w k = S_ "content-type" ->
  (forall t, In t bad -> header_value_ok sp t = false) -> header_value_ok sp ct = true -> split_fields sp ct b = Some fs ->
  exists ps, parse_multipart w sp b (Some (before ++ (k, bad ++ ct :: others) :: after)) = Some ps /\ Forall2 (fun f p => p = to_part f) fs ps.
Proof.
  intros w sp b before k bad ct others after fs NB NK LK BV CV SF. exists (map to_part fs). split.
  - unfold parse_multipart, type_value. rewrite flat_map_app.
    assert (flat_map (fun kv => if header_name_ok sp (fst kv) && str_eqb (to_lower w (fst kv)) (S_ "content-type")
                                    then filter (header_value_ok sp) (snd kv) else []) before = []) as ->.
    { apply flat_map_nil. intros [k' vs] J. cbn [fst snd]. destruct (str_eqb_spec (to_lower w k') (S_ "content-type")) as [E|_].
      - destruct (NB k' vs J E).
      - rewrite andb_false_r. reflexivity. }
    cbn [app flat_map fst snd]. rewrite NK. replace (to_lower w k) with (S_ "content-type") by (symmetry; exact LK). rewrite str_eqb_refl. cbn [andb].
    assert (filter (header_value_ok sp) (bad ++ ct :: others) = ct :: filter (header_value_ok sp) others) as ->.
    { clear -BV CV. induction bad as [|t bad IH]; cbn [app filter].
      - rewrite CV. reflexivity.
      - rewrite (BV t (or_introl eq_refl)). apply IH. intros u J. apply BV. right. exact J. }
    cbn [app hd_error]. rewrite SF. reflexivity.
  - clear. induction fs; cbn; constructor; auto.
Qed.
(** The text of a part: what is sent in base64 is decoded, whatever the case of the name of that encoding. *)
Theorem C105_base64 : forall w sp p e d, first_value (S_ "content-transfer-encoding") (mp_headers p) = Some e ->
  to_lower w (text_lossy sp e) = S_ "base64" -> b64_decode (mp_data p) = Some d -> decoded w sp p = d.
Proof.
  intros w sp p e d F L D. unfold decoded. rewrite F. replace (to_lower w (text_lossy sp e)) with (S_ "base64") by (symmetry; exact L).
  replace (str_eqb (S_ "base64") (S_ "base64")) with true by reflexivity. rewrite D. reflexivity.
Qed.
Theorem C105_other_encodings : forall w sp p,
  (forall e, first_value (S_ "content-transfer-encoding") (mp_headers p) = Some e -> to_lower w (text_lossy sp e) <> S_ "base64") -> decoded w sp p = mp_data p.
Proof.
  intros w sp p H. unfold decoded. destruct (first_value _ _) as [e|]; [|reflexivity].
  destruct (str_eqb_spec (to_lower w (text_lossy sp e)) (S_ "base64")) as [E|_]; [destruct (H e eq_refl E)|reflexivity].
Qed.

(** ** The rules for the content of a file *)
Lemma insert_fresh : forall A k (v : A) m, (forall e, In e m -> path_expr (fst e) <> path_expr k) -> hm_insert k v m = m ++ [(k, v)].
Proof.
  induction m as [|[k' v'] m IH]; intro H; [reflexivity|]. cbn [hm_insert]. unfold path_eqb.
  destruct (str_eqb_spec (path_expr k) (path_expr k')) as [E|_]; [destruct (H (k', v') (or_introl eq_refl)); symmetry; exact E|].
  cbn [app]. f_equal. apply IH. intros e I. apply H. right; exact I.
Qed.
Definition below_entries (path : docpath) (m : list (docpath * rulelist)) : list (docpath * rulelist) :=
  map (fun pr => (child_path (length (path_tokens path)) (fst pr), snd pr)) (filter (fun pr => matches_path path (to_vec (fst pr))) m).
Lemma rules_below_map : forall path m acc, NoDup (map (fun e => path_expr (fst e)) (acc ++ below_entries path m)) ->
  fold_left (fun m pr => if matches_path path (to_vec (fst pr)) then hm_insert (child_path (length (path_tokens path)) (fst pr)) (snd pr) m else m) m acc =
  acc ++ below_entries path m.
Proof.
  intros path m. induction m as [|[q rl] m IH]; intros acc ND; cbn [fold_left].
  - unfold below_entries. cbn [filter map]. symmetry. apply app_nil_r.
  - unfold below_entries in *. cbn [filter fst] in *. destruct (matches_path path (to_vec q)); [|apply IH; exact ND].
    cbn [map fst snd] in *. rewrite insert_fresh.
    + rewrite IH.
      * rewrite <- app_assoc. reflexivity.
      * rewrite <- app_assoc. exact ND.
    + intros e I E. rewrite map_app in ND. cbn [map fst] in ND. apply NoDup_remove_2 in ND. apply ND. apply in_or_app. left.
      rewrite <- E. apply (in_map (fun e => path_expr (fst e))). exact I.
Qed.
(** C105: the content of a file is compared with the rules that are written for its place or for something below, as they are seen from
    there; provided no two of them look the same from there. *)
Theorem C105_rules_of_a_file : forall path c q' rl,
  (forall q1 q2 r1 r2, In (q1, r1) (cat_rules (matchers c)) -> In (q2, r2) (cat_rules (matchers c)) -> written_below path q1 -> written_below path q2 ->
     build_expr (TRoot :: skipn (length (path_tokens path)) (path_tokens q1)) = build_expr (TRoot :: skipn (length (path_tokens path)) (path_tokens q2)) -> (q1, r1) = (q2, r2)) ->
  NoDup (cat_rules (matchers c)) ->
  (In (q', rl) (cat_rules (matchers (rules_below path c))) <->
   exists q, In (q, rl) (cat_rules (matchers c)) /\ written_below path q /\ seen_from path q q').
Proof.
  intros path c q' rl U ND. unfold rules_below. cbn [matchers cat_rules].
  rewrite (rules_below_map path (cat_rules (matchers c)) []); cbn [app].
  - unfold below_entries. rewrite in_map_iff. split.
    + intros ([q r] & E & I). cbn [fst snd] in E. injection E as E1 E2. apply filter_In in I. destruct I as [I M]. subst r.
      exists q. split; [exact I|]. split; [apply C04_matches_exactly_when; exact M|symmetry; exact E1].
    + intros (q & I & W & SF). exists (q, rl). cbn [fst snd]. split; [unfold child_path; unfold seen_from in SF; rewrite SF; reflexivity|].
      apply filter_In. split; [exact I|]. apply C04_matches_exactly_when. exact W.
  - unfold below_entries. rewrite map_map. cbn [fst]. remember (cat_rules (matchers c)) as m. clear Heqm.
    induction m as [|[q r] m IH]; [constructor|]. inversion ND as [|y l NI ND' E]. subst. cbn [filter fst].
    assert (forall q1 q2 r1 r2, In (q1, r1) m -> In (q2, r2) m -> written_below path q1 -> written_below path q2 ->
      build_expr (TRoot :: skipn (length (path_tokens path)) (path_tokens q1)) = build_expr (TRoot :: skipn (length (path_tokens path)) (path_tokens q2)) -> (q1, r1) = (q2, r2)) as U'
      by (intros; eapply U; eauto; right; assumption).
    destruct (matches_path path (to_vec q)) eqn:M; [|apply IH; assumption]. cbn [map]. constructor; [|apply IH; assumption].
    intro I. apply in_map_iff in I. destruct I as ([q2 r2] & E & I). apply filter_In in I. destruct I as [I M2]. cbn [fst] in *.
    assert ((q2, r2) = (q, r)) as EQ.
    { apply U; [right; exact I|left; reflexivity|apply C04_matches_exactly_when; exact M2|apply C04_matches_exactly_when; exact M|exact E]. }
    rewrite EQ in I. contradiction.
Qed.
(** C105: a JSON file: its text conforms to the expected one under those rules. *)
Lemma insert_rules : forall k (rl : rulelist) m e, In e (hm_insert k rl m) -> snd e = rl \/ In (snd e) (map snd m).
Proof.
  intros k rl m e. induction m as [|[k' r'] m IH]; cbn [hm_insert].
  - intros [<-|[]]. left; reflexivity.
  - destruct (path_eqb k k').
    + intros [<-|I]; [left; reflexivity|right; right; apply (in_map snd); exact I].
    + intros [<-|I]; [right; left; reflexivity|]. destruct (IH I) as [H|H]; [left; exact H|right; right; exact H].
Qed.
Lemma below_rules : forall path c e, In e (cat_rules (matchers (rules_below path c))) -> In (snd e) (map snd (cat_rules (matchers c))).
Proof.
  intros path c e. unfold rules_below. cbn [matchers cat_rules]. remember (cat_rules (matchers c)) as m.
  assert (forall m acc, In e (fold_left (fun m pr => if matches_path path (to_vec (fst pr)) then hm_insert (child_path (length (path_tokens path)) (fst pr)) (snd pr) m else m) m acc) ->
    In (snd e) (map snd m) \/ In (snd e) (map snd acc)) as H.
  { clear. induction m as [|[q rl] m IH]; intros acc H; cbn [fold_left] in H; [right; apply (in_map snd); exact H|].
    apply IH in H. destruct H as [H|H]; [left; right; exact H|]. cbn [fst snd] in H. destruct (matches_path path (to_vec q)); [|right; exact H].
    apply in_map_iff in H. destruct H as (y & E & I). apply insert_rules in I. rewrite E in I. destruct I as [I|I]; [left; left; symmetry; exact I|right; exact I]. }
  intro I. apply H in I. destruct I as [I|[]]. exact I.
Qed.
Lemma below_body : forall path c, body_rules (matchers c) -> body_rules (matchers (rules_below path c)).
Proof.
  intros path c [B R]. split; [exact B|]. intros e r I Ir. apply below_rules in I. apply in_map_iff in I. destruct I as (y & E & I). rewrite <- E in Ir. exact (R y r I Ir).
Qed.
Theorem C105_json_file : forall w x sp c e a path ct je ja, body_rules (matchers c) -> mp_is_file e = true -> mp_is_file a = true -> place e path ->
  mp_type e = Some ct -> mp_type a = Some ct -> json_type ct ->
  json_of_bytes x (decoded w sp e) = Some je -> json_of_bytes x (decoded w sp a) = Some ja ->
  (parts_agree w x sp c e a <-> headers_agree w sp c path (mp_headers e) (mp_headers a) /\ conforms w (rules_below path c) path_root je ja).
Proof.
  intros w x sp c e a path ct je ja BR Fe Fa PL Te Ta JT Je Ja. pose proof (below_body path c BR) as BB.
  assert (compare_bodies w x ct (mkPart None (BPresent (decoded w sp e) (Some ct) None)) (mkPart None (BPresent (decoded w sp a) (Some ct) None)) (rules_below path c) = Ok BodyOk
    <-> conforms w (rules_below path c) path_root je ja) as K.
  { unfold compare_bodies, compare_bodies_core. rewrite (proj2 (C52_json_types ct) JT). cbn [bind]. unfold match_json, body_bytes. cbn [part_body body_value].
    rewrite Je, Ja. rewrite body_ok_iff. apply C67_body_matching, BB. }
  split.
  - intros [p F1|p te ta _ _ PL' HA FT FT' _ CB]; [congruence|]. apply place_iff in PL. apply place_iff in PL'. subst path p.
    apply file_type_iff in FT. apply file_type_iff in FT'. rewrite Te in FT. rewrite Ta in FT'. cbn [type_or_default] in *. subst te ta.
    split; [exact HA|apply K, CB].
  - intros [HA C]. apply (pa_files w x sp c e a path ct ct Fe Fa PL HA); [left; exact Te|left; exact Ta| |apply K, C].
    right. right. left. apply C52_equivalence_is_reflexive.
Qed.

(** ** Without rules *)
Lemma none_governed : forall m p (P : rule -> bool -> Prop), cat_rules m = [] -> (governed m p P <-> P REquality false).
Proof.
  intros m p P E. split.
  - intros [[_ H]|(rl & (b & e & a & C & _) & _)]; [exact H|]. rewrite E in C. destruct b; discriminate C.
  - intro H. left. split; [intros e I; rewrite E in I; destruct I|exact H].
Qed.
Lemma header_no_rules : forall w c, no_rules c -> cat_rules (matchers (header_context w c)) = [].
Proof. intros w c NR. unfold header_context. cbn [matchers cat_rules]. rewrite NR. reflexivity. Qed.
Definition plain_headers (sp : splitter) (expected actual : header_map) : Prop :=
  forall k v more, In (k, (v, more)) expected ->
    match first_value k actual with
    | Some v' => k = S_ "content-disposition" \/ text_lossy sp v = text_lossy sp v'
    | None => k = S_ "content-type" \/ k = S_ "content-disposition" \/ k = S_ "content-transfer-encoding"
    end.
(** C105: two fields agree when their texts and their headers are the same, up to the content disposition. *)
Theorem C105_fields_without_rules : forall w x sp c e a, no_rules c -> mp_is_file e = false ->
  (parts_agree w x sp c e a <-> mp_is_file a = false /\ plain_headers sp (mp_headers e) (mp_headers a) /\
     text_lossy sp (decoded w sp e) = text_lossy sp (decoded w sp a)).
Proof.
  intros w x sp c e a NR Fe. pose proof (header_no_rules w c NR) as HR.
  assert (forall path, headers_agree w sp c path (mp_headers e) (mp_headers a) <-> plain_headers sp (mp_headers e) (mp_headers a)) as HI.
  { intro path. unfold headers_agree, plain_headers, header_agrees, rule_for. cbv zeta. rewrite HR. split; intros H k v more I; specialize (H k v more I);
      (destruct (first_value k (mp_headers a)) as [v'|]; [|exact H]).
    - destruct H as [[(q & [] & _) _]|[_ H]]. exact H.
    - right. split; [intros (q & [] & _)|exact H]. }
  split.
  - intros [path _ Fa PL HA G|path te ta F1]; [|congruence]. split; [exact Fa|]. split; [apply (HI path); exact HA|].
    apply none_governed in G; [|exact NR]. exact G.
  - intros (Fa & HA & T). apply (pa_fields w x sp c e a (part_path e) Fe Fa); [apply place_iff; reflexivity|apply HI; exact HA|].
    apply none_governed; [exact NR|exact T].
Qed.
Lemma rules_below_none : forall path c, no_rules c -> no_rules (rules_below path c).
Proof. intros path c NR. unfold no_rules, rules_below. cbn [matchers cat_rules]. rewrite NR. reflexivity. Qed.

(** A file whose type has no comparison of its own, or a readable JSON file. *)
Definition plain_file (w : world) (x : externals) (sp : splitter) (p : mime_part) : Prop :=
  exists ct, file_type p ct /\
   (other_type x ct \/ (json_type ct /\ exists j, json_of_bytes x (decoded w sp p) = Some j /\ json_wf j)).
Lemma same_file : forall w x sp c p ct, no_rules c -> (other_type x ct \/ (json_type ct /\ exists j, json_of_bytes x (decoded w sp p) = Some j /\ json_wf j)) ->
  compare_bodies w x ct (mkPart None (BPresent (decoded w sp p) (Some ct) None)) (mkPart None (BPresent (decoded w sp p) (Some ct) None)) c = Ok BodyOk.
Proof.
  intros w x sp c p ct NR [OT|(JT & j & J & WF)]; unfold compare_bodies.
  - rewrite (other_core w x ct _ _ c OT). rewrite (no_rules_undefined c path_root NR). cbn [andb].
    unfold match_octet_stream, match_text. rewrite (no_rules_undefined c path_root NR). unfold body_bytes. cbn [part_body body_value opt_bytes_eqb opt_str_eqb].
    unfold opt_bytes_eqb, opt_str_eqb. assert (str_eqb (decoded w sp p) (decoded w sp p) = true) as R by (apply str_eqb_eq; reflexivity).
    destruct (_ || _); match goal with |- context [str_eqb ?a ?b] => replace (str_eqb a b) with true by (symmetry; exact R) end; reflexivity.
  - unfold compare_bodies_core. rewrite (proj2 (C52_json_types ct) JT). unfold match_json, body_bytes. cbn [part_body body_value bind]. rewrite J.
    apply body_ok_iff. apply compare_no_rules; auto using agrees_refl.
Qed.
(** C105: a body matches itself when its parts have names of their own. *)
Theorem C105_matches_itself : forall w x sp c h b ps, no_rules c -> cat_name (matchers c) = CBody -> parse_multipart w sp (body_bytes b) h = Some ps ->
  (forall p, In p ps -> mp_name p <> []) -> NoDup (map mp_name ps) ->
  (forall p, In p ps -> NoDup (map fst (mp_headers p))) ->
  (forall p, In p ps -> mp_is_file p = true -> plain_file w x sp p) ->
  match_mime_multipart w x sp h b h b c = [].
Proof.
  intros w x sp c h b ps NR B P NE ND HD PF. apply (C105_multipart w x sp c h b h b B). exists ps, ps. split; [exact P|]. split; [exact P|].
  intros p I. exists p. split.
  - apply in_split in I. destruct I as (l & r & ->). exists l, r. split; [reflexivity|].
    assert (mp_name p <> []) as NP by (apply NE, in_or_app; right; left; reflexivity).
    split; [right; split; [exact NP|reflexivity]|]. intros a' Ia [[E _]|[_ E]].
    + apply (NE a'); [apply in_or_app; left; exact Ia|exact E].
    + rewrite map_app in ND. cbn [map] in ND. apply NoDup_remove_2 in ND. apply ND. apply in_or_app. left. rewrite <- E. apply in_map, Ia.
  - assert (plain_headers sp (mp_headers p) (mp_headers p)) as PH.
    { intros k v more Ik. unfold first_value. rewrite (obj_get_nodup _ k (v, more) (mp_headers p)); [|exact (HD p I)|exact Ik]. right; reflexivity. }
    destruct (mp_is_file p) eqn:F.
    + destruct (PF p I F) as (ct & FT & K). apply (pa_files w x sp c p p (part_path p) ct ct F F); [apply place_iff; reflexivity| |exact FT|exact FT| |].
      * intros k v more Ik. unfold header_agrees, rule_for. cbv zeta. rewrite (header_no_rules w c NR). specialize (PH k v more Ik).
        destruct (first_value k (mp_headers p)) as [v'|]; [|exact PH]. right. split; [intros (q & [] & _)|exact PH].
      * right. right. left. apply C52_equivalence_is_reflexive.
      * apply same_file; [apply rules_below_none, NR|exact K].
    + apply C105_fields_without_rules; [exact NR|exact F|]. split; [exact F|]. split; [exact PH|reflexivity].
Qed.

(** ** What is not compared *)
(** C105: parts of the actual body after those that are compared do not matter. *)
Theorem C105_more_parts : forall w x sp c eh eb ah ab ah' ab' as_ more, cat_name (matchers c) = CBody ->
  parse_multipart w sp (body_bytes ab) ah = Some as_ -> parse_multipart w sp (body_bytes ab') ah' = Some (as_ ++ more) ->
  match_mime_multipart w x sp eh eb ah ab c = [] -> match_mime_multipart w x sp eh eb ah' ab' c = [].
Proof.
  intros w x sp c eh eb ah ab ah' ab' as_ more B P P' M. apply C105_multipart in M; [|exact B]. apply C105_multipart; [exact B|].
  destruct M as (es & as' & E1 & E2 & H). assert (as' = as_) as -> by congruence. exists es, (as_ ++ more). split; [exact E1|]. split; [exact P'|].
  intros e I. destruct (H e I) as (a & (l & r & -> & SP & NL) & PA). exists a. split; [|exact PA].
  exists l, (r ++ more). rewrite <- app_assoc. split; [reflexivity|]. split; [exact SP|exact NL].
Qed.
(** C105: expected parts of the same name are all compared with the same actual part: two fields of one name with different texts are
    matched by no body whose parts have names. *)
Theorem C105_repeated_names : forall w x sp c eh eb ah ab es as_ e1 e2, no_rules c -> cat_name (matchers c) = CBody ->
  parse_multipart w sp (body_bytes eb) eh = Some es -> parse_multipart w sp (body_bytes ab) ah = Some as_ ->
  (forall a, In a as_ -> mp_name a <> []) ->
  In e1 es -> In e2 es -> mp_name e1 = mp_name e2 -> mp_is_file e1 = false -> mp_is_file e2 = false ->
  text_lossy sp (decoded w sp e1) <> text_lossy sp (decoded w sp e2) ->
  match_mime_multipart w x sp eh eb ah ab c <> [].
Proof.
  intros w x sp c eh eb ah ab es as_ e1 e2 NR B P1 P2 NN I1 I2 EN F1 F2 T M. apply C105_multipart in M; [|exact B].
  destruct M as (es' & as' & E1 & E2 & H). assert (es' = es) as -> by congruence. assert (as' = as_) as -> by congruence.
  destruct (H e1 I1) as (a1 & C1 & A1). destruct (H e2 I2) as (a2 & C2 & A2).
  assert (a1 = a2) as ->.
  { apply partner_iff in C1. apply partner_iff in C2. enough (partner e1 as_ = partner e2 as_) as Q by congruence. clear - NN EN.
    unfold partner. induction as_ as [|y l IH]; [reflexivity|]. cbn [find]. rewrite IH by (intros a I; apply NN; right; exact I).
    pose proof (NN y (or_introl eq_refl)) as NY. rewrite EN. destruct (mp_name y); [congruence|reflexivity]. }
  apply C105_fields_without_rules in A1; [|exact NR|exact F1]. apply C105_fields_without_rules in A2; [|exact NR|exact F2].
  apply T. destruct A1 as (_ & _ & ->). destruct A2 as (_ & _ & ->). reflexivity.
Qed.
(** C105: a file that is itself a multipart body never matches, since its content is compared without its headers. *)
Theorem C105_nested : forall w x sp c eh eb ah ab es e, cat_name (matchers c) = CBody ->
  parse_multipart w sp (body_bytes eb) eh = Some es -> In e es -> mp_is_file e = true ->
  (exists ct, mp_type e = Some ct /\ main_type ct = S_ "multipart" /\ ~ json_type ct /\ ~ xml_type ct) ->
  match_multipart (multipart_ext w x sp) eh eb ah ab c <> [].
Proof.
  intros w x sp c eh eb ah ab es e B P I F (ct & CT & MT & NJ & NX) M. unfold multipart_ext, with_multipart in M. cbn [match_multipart] in M.
  apply C105_multipart in M; [|exact B]. destruct M as (es' & as_ & E1 & E2 & H). assert (es' = es) as -> by congruence.
  destruct (H e I) as (a & _ & PA). destruct PA as [p F1|p te ta _ _ PL HA FT FT' _ CB]; [congruence|].
  destruct FT as [FT|[FT _]]; [|congruence]. assert (te = ct) as -> by congruence.
  unfold compare_bodies, compare_bodies_core in CB.
  assert (is_json ct = false) as J by (apply not_true_iff_false; rewrite C52_json_types; exact NJ).
  assert (is_xml ct = false) as X by (apply not_true_iff_false; rewrite C52_xml_types; exact NX).
  assert (main_is ct (S_ "multipart") = true) as MI by (unfold main_is; apply str_eqb_eq; exact MT).
  rewrite J, X, MI in CB. cbn [match_multipart part_headers part_body bind] in CB. unfold nested_multipart, match_mime_multipart, multipart_inner, parse_multipart, type_value in CB.
  discriminate CB.
Qed.
(** C105: rules for the headers of a part are looked up in lower case, while the name of the part is not: a rule for a header of a part
    with a capital letter in its name has no effect. *)
Theorem C105_capital_names : forall w sp c name k rl path actual v, cat_rules (matchers c) = [(join (join path_root name) k, rl)] ->
  parse_usize name = None -> name <> S_ "*" -> name <> S_ "[*]" -> to_lower w name <> name ->
  path = join path_root name ->
  (header_agrees w sp c path actual k v <->
   match first_value k actual with
   | Some v' => k = S_ "content-disposition" \/ text_lossy sp v = text_lossy sp v'
   | None => k = S_ "content-type" \/ k = S_ "content-disposition" \/ k = S_ "content-transfer-encoding"
   end).
Proof.
  intros w sp c name k rl path actual v R U N1 N2 L ->. unfold header_agrees. cbv zeta. destruct (first_value k actual) as [v'|]; [|reflexivity].
  assert (~ rule_for (matchers (header_context w c)) (join (join path_root name) k)) as NR.
  { intros (q & I & [[AC _] _]). unfold header_context in I. cbn [matchers cat_rules] in I. rewrite R in I. cbn [fold_left hm_insert fst snd] in I.
    destruct I as [<-|[]]. cbn [fst] in AC. unfold matching_path, to_lower_case in AC. cbn [path_tokens] in AC.
    assert (forall k, exists t, path_tokens (join (join path_root name) k) = [TRoot; TField name; t]) as J.
    { intro k0. unfold join at 2. destruct (str_eqb_spec name (S_ "*")) as [E|_]; [contradiction|]. destruct (str_eqb_spec name (S_ "[*]")) as [E|_]; [contradiction|].
      rewrite U. unfold join. destruct (str_eqb k0 (S_ "*")); [eexists; reflexivity|]. destruct (str_eqb k0 (S_ "[*]")); [eexists; reflexivity|].
      destruct (parse_usize k0); eexists; reflexivity. }
    destruct (J k) as [t Jt]. unfold to_vec in AC. rewrite Jt in AC. cbn [map] in AC. inversion AC as [|t0 ts f pth _ A2 Q1 Q2]; subst.
    inversion A2 as [|t1 ts1 f1 pth1 SA _ Q3 Q4]. apply L. unfold step_accepts in SA. cbn [token_display] in SA. symmetry. exact SA. }
  split.
  - intros [[Y _]|[_ H]]; [destruct (NR Y)|exact H].
  - intro H. right. split; [exact NR|exact H].
Qed.

(** ** Requests and responses *)
(** C105: for the bodies of requests and responses, and of messages. *)
Theorem C105_http : forall w x sp ct e a c, cat_name (matchers c) = CBody -> main_type ct = S_ "multipart" -> ~ json_type ct -> ~ xml_type ct ->
  body_present (part_body e) = true -> body_present (part_body a) = true ->
  (match_body_content w (multipart_ext w x sp) ct e a c = Ok BodyOk <->
   exists es as_, parse_multipart w sp (body_bytes (part_body e)) (part_headers e) = Some es /\
     parse_multipart w sp (body_bytes (part_body a)) (part_headers a) = Some as_ /\
     body_agrees w (with_multipart x (nested_multipart w x sp)) sp c es as_).
Proof.
  intros w x sp ct e a c B MT NJ NX Pe Pa. rewrite <- (C105_multipart w (with_multipart x (nested_multipart w x sp)) sp c _ _ _ _ B).
  assert (is_json ct = false) as J by (apply not_true_iff_false; rewrite C52_json_types; exact NJ).
  assert (is_xml ct = false) as X by (apply not_true_iff_false; rewrite C52_xml_types; exact NX).
  assert (main_is ct (S_ "multipart") = true) as MI by (unfold main_is; apply str_eqb_eq; exact MT).
  unfold match_body_content. destruct (part_body e) eqn:Be; try discriminate Pe. destruct (part_body a) eqn:Ba; try discriminate Pa.
  unfold compare_bodies, compare_bodies_core. rewrite J, X, MI, Be, Ba. unfold multipart_ext, with_multipart at 1. cbn [match_multipart bind].
  apply body_ok_iff.
Qed.

(** ** Examples *)
Definition hdr (k v : string) : str * (list N * list (list N)) := (S_ k, (S_ v, [])).
Definition text_field (i : N) (n t : string) : field :=
  mkField i (Some (S_ n)) None None (S_ t) [hdr "content-disposition" "form-data; name=..."].
Definition json_file (i : N) (n t : string) (extra : header_map) : field :=
  mkField i (Some (S_ n)) (Some (S_ "f.json")) (Some (mkCT (S_ "application") (S_ "json") [] None)) (S_ t)
    ([hdr "content-disposition" "form-data; name=...; filename=f.json"; hdr "content-type" "application/json"] ++ extra).
Definition binary_file (i : N) (n t : string) : field :=
  mkField i (Some (S_ n)) (Some (S_ "f")) (Some (mkCT (S_ "image") (S_ "png") [] None)) (S_ t) [hdr "content-type" "image/png"].
Definition ex_split : splitter := mkSplit
  (fun ct b => if str_eqb b (S_ "E") then Some [text_field 0 "a" "1"; json_file 1 "F" "{""a"":[1,[2]]}" [hdr "x-id" "1"]]
               else if str_eqb b (S_ "A") then Some [text_field 0 "b" "9"; json_file 1 "F" "{""a"":[2,[2]]}" [hdr "x-id" "1"]; text_field 2 "a" "1"]
               else if str_eqb b (S_ "A2") then Some [json_file 0 "F" "{""a"":[2,[2]]}" [hdr "x-id" "2"]; text_field 1 "a" "1"]
               else if str_eqb b (S_ "B") then Some [binary_file 0 "f" "1"]
               else if str_eqb b (S_ "B2") then Some [binary_file 0 "f" "2"] else None)
  (fun _ => true) (fun _ => true) (fun b => b).
Definition ex_headers : option hmap := Some [(S_ "Content-Type", [S_ "multipart/form-data; boundary=x"])].
Definition ex_compare (e a : string) (rules : list (docpath * rulelist)) : list mismatch :=
  match_mime_multipart digits_world engine_ext ex_split ex_headers (BPresent (S_ e) None None) ex_headers (BPresent (S_ a) None None) (mkCtx true (mkCat CBody rules)).
Definition at_file : docpath := join path_root (S_ "F").
Definition by_type : rulelist := mkRules [RType] And false.
(** The parts in another order with one more between them; a rule below the file; a header that differs. *)
Theorem C105_example :
  ex_compare "E" "E" [] = [] /\
  ex_compare "E" "A" [] = [mkMM (S_ "$.a[0]") KNotEqual] /\
  ex_compare "E" "A" [(join (join at_file (S_ "a")) (S_ "0"), by_type)] = [] /\
  ex_compare "E" "A2" [(join (join at_file (S_ "a")) (S_ "0"), by_type)] = [mkMM (S_ "$.F['x-id']") KNotEqual] /\
  ex_compare "A" "E" [(join (join at_file (S_ "a")) (S_ "0"), by_type)] = [root_mm KAbsent] /\
  ex_compare "E" "C" [] = [root_mm KUnreadable].
Proof. repeat split; reflexivity. Qed.
(** The rule for the header of a part with a capital letter in its name. *)
Theorem C105_capital_example :
  ex_compare "E" "A2" [(join (join at_file (S_ "a")) (S_ "0"), by_type); (join at_file (S_ "x-id"), by_type)] = [mkMM (S_ "$.F['x-id']") KNotEqual].
Proof. reflexivity. Qed.
(** Comparing short binary files by an equality rule panics (C51); the panic becomes a mismatch. *)
Theorem C105_panic_contained :
  ex_compare "B" "B2" [(join path_root (S_ "f"), mkRules [REquality] And false)] = [root_mm KUnreadable] /\
  ex_compare "B" "B2" [] = [root_mm KNotEqual].
Proof. split; reflexivity. Qed.
(** The hypotheses of [C105_matches_itself], [C105_nested] and [C105_capital_names] are met. *)
Theorem C105_hypotheses_met : exists ps,
  parse_multipart digits_world ex_split (S_ "E") ex_headers = Some ps /\ length ps = 2%nat /\
  (forall p, In p ps -> mp_name p <> []) /\ NoDup (map mp_name ps) /\ (forall p, In p ps -> NoDup (map fst (mp_headers p))) /\
  (forall p, In p ps -> mp_is_file p = true -> plain_file digits_world engine_ext ex_split p) /\
  (exists p, In p ps /\ mp_is_file p = true) /\ to_lower digits_world (S_ "F") <> S_ "F" /\
  (exists ct, main_type ct = S_ "multipart" /\ ~ json_type ct /\ ~ xml_type ct).
Proof.
  eexists. split; [reflexivity|]. split; [reflexivity|]. cbn [map]. split; [|split; [|split; [|split; [|split; [|split]]]]].
  - intros p [<-|[<-|[]]]; discriminate.
  - constructor; [intros [E|[]]; discriminate E|]. constructor; [intros []|constructor].
  - intros p [<-|[<-|[]]]; cbn [mp_headers to_part text_field json_file fd_headers map fst app hdr]; repeat (constructor; [cbn [In]; intuition discriminate|]); constructor.
  - intros p [<-|[<-|[]]] F; [discriminate F|]. exists (mkCT (S_ "application") (S_ "json") [] None). split; [left; reflexivity|]. right.
    split; [apply C52_json_types; reflexivity|]. eexists. split; [reflexivity|]. repeat constructor.
  - eexists. split; [right; left; reflexivity|reflexivity].
  - discriminate.
  - exists (mkCT (S_ "multipart") (S_ "mixed") [] None). split; [reflexivity|]. split; intro K; [apply C52_json_types in K|apply C52_xml_types in K]; discriminate K.
Qed.
