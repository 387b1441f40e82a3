(** Property C105: the comparison of MIME multipart bodies. *)
From Coq Require Import Ascii String List Arith NArith ZArith Lia Bool.
From Verif Require Import Base PathExp SpecPath PropPath Json Text MatchingRules SpecRules PropRules Matchers JsonCompare SpecMatch CompareProofs SpecValues
  SpecBody BodyProofs PropBody Headers Query ContentType Http SpecHttp PropHttp PropHttp2 Xml SpecXml PropXml Base64 Multipart SpecMultipart.
Import ListNotations.
Open Scope N_scope.
Local Opaque show_N.

(** ** Which part is compared with which *)
Lemma same_part_iff : forall e a, (match mp_name a with [] => mp_index a =? mp_index e | n => str_eqb n (mp_name e) end) = true <-> same_part e a.
Proof.
  intros e a. unfold same_part. destruct (mp_name a) as [|x n].
  - rewrite N.eqb_eq. split; [intro E; left; split; [reflexivity|exact E]|intros [[_ E]|[E _]]; [exact E|congruence]].
  - rewrite str_eqb_eq. split; [intro E; right; split; [discriminate|exact E]|intros [[E _]|[_ E]]; [discriminate|exact E]].
Qed.
Lemma partner_iff : forall e a l, partner e l = Some a <-> compared_with e a l.
Proof.
  intros e a l. unfold partner, compared_with. induction l as [|y l IH]; cbn [find].
  - split; [discriminate|]. intros ([|? ?] & ? & E & _); discriminate E.
  - destruct (match mp_name y with [] => mp_index y =? mp_index e | n => str_eqb n (mp_name e) end) eqn:Y.
    + pose proof (proj1 (same_part_iff e y) Y) as SY. split.
      * intro E. injection E as <-. exists [], l. split; [reflexivity|]. split; [exact SY|intros ? []].
      * intros ([|z b] & r & E & SA & NB); cbn [app] in E; injection E as E1 E2; [subst; reflexivity|].
        subst z. destruct (NB y (or_introl eq_refl) SY).
    + assert (~ same_part e y) as NY by (intro K; apply same_part_iff in K; congruence). rewrite IH. split.
      * intros (b & r & -> & SA & NB). exists (y :: b), r. split; [reflexivity|]. split; [exact SA|]. intros a' [<-|I]; [exact NY|apply NB, I].
      * intros ([|z b] & r & E & SA & NB); cbn [app] in E; injection E as E1 E2; [subst; contradiction|].
        subst z l. exists b, r. split; [reflexivity|]. split; [exact SA|]. intros a' I. apply NB. right; exact I.
Qed.
Lemma place_iff : forall p path, place p path <-> path = part_path p.
Proof.
  intros p path. unfold place, part_path. destruct (mp_name p) as [|x n]; split.
  - intros [[E _]|[_ E]]; [congruence|exact E].
  - intro E. right. split; [reflexivity|exact E].
  - intros [[_ E]|[E _]]; [exact E|discriminate].
  - intro E. left. split; [discriminate|exact E].
Qed.
Lemma file_type_iff : forall p ct, file_type p ct <-> ct = type_or_default (mp_type p).
Proof.
  intros p ct. unfold file_type, type_or_default. destruct (mp_type p) as [t|]; split.
  - intros [E|[E _]]; congruence.
  - intros ->. left; reflexivity.
  - intros [E|[_ E]]; congruence.
  - intros ->. right. split; reflexivity.
Qed.

Section General.
Variables (w : world) (x : externals) (sp : splitter) (c : context).
Hypothesis B : cat_name (matchers c) = CBody.

Lemma map_empty : forall A C (f : A -> C) l, map f l = [] <-> l = [].
Proof. intros A C f [|y l]; split; try discriminate; reflexivity. Qed.

Lemma header_iff : forall path ah k v more,
  match_part_header w sp path (header_context w c) ah (k, (v, more)) = [] <-> header_agrees w sp c path ah k v.
Proof.
  intros path ah k v more. unfold match_part_header, header_agrees. cbn [fst snd]. cbv zeta.
  set (hc := header_context w c). assert (BH : cat_name (matchers hc) = CBody) by exact B. clearbody hc.
  destruct (first_value k ah) as [v'|].
  - rewrite map_empty. destruct (direct_any_matcher hc (join path k)) eqn:D.
    + pose proof (proj1 (direct_any_iff hc (join path k) BH) D) as R. split.
      * intro M. left. split; [exact R|]. apply match_values_iff in M. destruct M as [NE C].
        destruct R as (y & I & EX). destruct (exact_in_force hc (join path k) BH y I EX) as [rl F]. right. exists rl. split; [exact F|].
        unfold ctx_select_best in NE, C. rewrite (in_force_select (matchers hc) _ BH rl F) in NE, C. split; [exact NE|].
        revert C. apply combined_ext. intro r. symmetry. apply xtext_iff.
      * intros [[_ [[NR _]|(rl & F & NE & C)]]|[NR _]].
        -- destruct R as (y & I & [EX _]). destruct (NR y I EX).
        -- apply match_values_iff. unfold ctx_select_best. rewrite (in_force_select (matchers hc) _ BH rl F). split; [exact NE|].
           revert C. apply combined_ext. intro r. apply xtext_iff.
        -- destruct (NR R).
    + assert (NR : ~ rule_for (matchers hc) (join path k)). { intro R. apply (direct_any_iff hc (join path k) BH) in R. congruence. }
      destruct (str_eqb_spec k (S_ "content-disposition")) as [K|K].
      * split; [|reflexivity]. intros _. right. split; [exact NR|left; exact K].
      * destruct (str_matches w (text_lossy sp v) (text_lossy sp v') REquality false) eqn:E.
        -- split; [|reflexivity]. intros _. right. split; [exact NR|right]. apply xtext_iff in E. exact E.
        -- split; [discriminate|]. intros [[R _]|[_ [R|R]]]; [destruct (NR R)|destruct (K R)|].
           exfalso. enough (str_matches w (text_lossy sp v) (text_lossy sp v') REquality false = true) by congruence. apply xtext_iff. exact R.
  - unfold optional_header. destruct (str_eqb_spec k (S_ "content-type")) as [K1|K1]; cbn [orb]; [split; [intros _; left; exact K1|reflexivity]|].
    destruct (str_eqb_spec k (S_ "content-disposition")) as [K2|K2]; cbn [orb]; [split; [intros _; right; left; exact K2|reflexivity]|].
    destruct (str_eqb_spec k (S_ "content-transfer-encoding")) as [K3|K3]; [split; [intros _; right; right; exact K3|reflexivity]|].
    split; [discriminate|]. intros [E|[E|E]]; contradiction.
Qed.
Lemma headers_iff : forall path eh ah, match_part_headers w sp path eh ah c = [] <-> headers_agree w sp c path eh ah.
Proof.
  intros path eh ah. unfold match_part_headers, headers_agree. rewrite flat_map_nil. split.
  - intros H k v more I. apply (header_iff path ah k v more), (H _ I).
  - intros H [k [v more]] I. apply header_iff, (H _ _ _ I).
Qed.
Lemma ok_app : forall A (a b : list A), a ++ b = [] <-> a = [] /\ b = [].
Proof. intros A [|y a] b; cbn [app]; split; try tauto; try discriminate. intros [E _]; discriminate E. Qed.
Lemma groups_nonempty : forall l g, g <> [] -> flat_map snd (group_mismatches l g) = [] -> flat_map snd g = [].
Proof.
  induction l as [|m l IH]; intros g NE H; [exact H|]. cbn [group_mismatches] in H.
  destruct (obj_get (mm_path m) g) as [ms|] eqn:G.
  - assert (sm_insert (mm_path m) (ms ++ [m]) g <> []) as NE' by (destruct g as [|[k v] g]; [congruence|cbn [sm_insert]; destruct (str_eqb _ _); discriminate]).
    specialize (IH _ NE' H). exfalso. clear - IH. induction g as [|[k v] g IHg]; cbn [sm_insert] in IH.
    + cbn [flat_map snd] in IH. apply ok_app in IH. destruct IH as [IH _]. apply ok_app in IH. destruct IH as [_ IH]. discriminate IH.
    + destruct (str_eqb (mm_path m) k); cbn [flat_map snd] in IH; apply ok_app in IH; destruct IH as [I1 I2].
      * apply ok_app in I1. destruct I1 as [_ I1]. discriminate I1.
      * apply IHg, I2.
  - assert (g ++ [(mm_path m, [m])] <> []) as NE' by (destruct g; discriminate). specialize (IH _ NE' H).
    rewrite flat_map_app in IH. apply ok_app in IH. tauto.
Qed.
Lemma result_empty : forall ct e a c', (exists r, compare_bodies w x ct e a c' = Ok r /\ result_mismatches r = []) <-> compare_bodies w x ct e a c' = Ok BodyOk.
Proof.
  intros ct e a c'. split.
  - intros (r & E & R). rewrite E. f_equal. unfold compare_bodies in E. destruct (compare_bodies_core w x ct e a c') as [ms| |]; cbn [bind] in E; try discriminate E.
    injection E as E. subst r. destruct ms as [|m ms]; [reflexivity|]. exfalso. cbn [result_mismatches group_mismatches obj_get app] in R.
    apply groups_nonempty in R; [|discriminate]. discriminate R.
  - intro E. exists BodyOk. split; [exact E|reflexivity].
Qed.
Lemma types_iff : forall e a, is_unknown e || is_unknown a || is_equivalent_to e a || is_equivalent_to e (base_type a) = true <-> types_comparable e a.
Proof. intros e a. unfold types_comparable. rewrite !orb_true_iff. tauto. Qed.

Lemma part_iff : forall e a, match_mime_part w x sp e a c = Ok [] <-> parts_agree w x sp c e a.
Proof.
  intros e a. unfold match_mime_part. destruct (mp_is_file e) eqn:Fe, (mp_is_file a) eqn:Fa.
  - unfold match_file_part. cbv zeta. set (te := type_or_default (mp_type e)). set (ta := type_or_default (mp_type a)).
    assert (Te : file_type e te) by (apply file_type_iff; reflexivity). assert (Ta : file_type a ta) by (apply file_type_iff; reflexivity).
    destruct (is_unknown te || is_unknown ta || is_equivalent_to te ta || is_equivalent_to te (base_type ta)) eqn:TC.
    + apply types_iff in TC. split.
      * intro H. destruct (compare_bodies w x te (mkPart None (BPresent (decoded w sp e) (Some te) None))
                       (mkPart None (BPresent (decoded w sp a) (Some ta) None)) (rules_below (part_path e) c)) as [r| |] eqn:R; cbn [bind] in H; try discriminate H.
        injection H as H. apply ok_app in H. destruct H as [H1 H2]. apply (pa_files w x sp c e a (part_path e) te ta Fe Fa);
          [apply place_iff; reflexivity|apply headers_iff; exact H1|exact Te|exact Ta|exact TC|]. apply result_empty. exists r. split; [exact R|exact H2].
      * intros [path F1|path te' ta' _ _ PL HA FT FT' _ CB]; [congruence|]. apply place_iff in PL. subst path.
        apply file_type_iff in FT. apply file_type_iff in FT'. subst te' ta'. change (type_or_default (mp_type e)) with te in CB. change (type_or_default (mp_type a)) with ta in CB.
        rewrite CB. cbn [bind result_mismatches]. rewrite (proj2 (headers_iff _ _ _) HA). reflexivity.
    + split.
      * intro H. cbn [bind result_mismatches] in H. injection H as H. apply ok_app in H. destruct H as [_ H]. discriminate H.
      * intros [path F1|path te' ta' _ _ PL HA FT FT' T1 CB]; [congruence|]. apply file_type_iff in FT. apply file_type_iff in FT'. subst te' ta'.
        apply types_iff in T1. fold te ta in T1. congruence.
  - split; [discriminate|]. intros [? F1 F2|? ? ? F1 F2]; congruence.
  - split; [discriminate|]. intros [? F1 F2|? ? ? F1 F2]; congruence.
  - unfold match_field. cbv zeta. split.
    + intro H. injection H as H. apply ok_app in H. destruct H as [H1 H2]. apply map_empty in H2. apply (rules_iff c B) in H2.
      apply (pa_fields w x sp c e a (part_path e) Fe Fa); [apply place_iff; reflexivity|apply headers_iff; exact H1|].
      revert H2. apply governed_ext. intros r k. symmetry. apply xtext_iff.
    + intros [path _ _ PL HA G|path te ta F1]; [|congruence]. apply place_iff in PL. subst path. f_equal. apply ok_app. split; [apply headers_iff; exact HA|].
      apply map_empty. apply (rules_iff c B). revert G. apply governed_ext. intros r k. apply xtext_iff.
Qed.
Lemma parts_iff : forall es as_, match_parts w x sp es as_ c = Ok [] <-> body_agrees w x sp c es as_.
Proof.
  intros es as_. unfold body_agrees. induction es as [|e es IH]; cbn [match_parts]; [split; [intros _ e []|reflexivity]|]. split.
  - intros H e' I'. destruct (partner e as_) as [a|] eqn:P.
    + destruct (match_mime_part w x sp e a c) as [ms| |] eqn:M; cbn [bind] in H; try discriminate H.
      destruct (match_parts w x sp es as_ c) as [rest| |] eqn:R; cbn [bind] in H; try discriminate H.
      injection H as H. apply ok_app in H. destruct H; subst. destruct I' as [<-|I'].
      * exists a. split; [apply partner_iff; exact P|apply part_iff; exact M].
      * apply (proj1 IH eq_refl), I'.
    + cbn [bind] in H. destruct (match_parts w x sp es as_ c) as [rest| |]; cbn [bind] in H; try discriminate H.
  - intro H. destruct (H e (or_introl eq_refl)) as (a & C & PA). apply partner_iff in C. apply part_iff in PA. rewrite C, PA. cbn [bind].
    rewrite (proj2 IH) by (intros e' I'; apply H; right; exact I'). reflexivity.
Qed.
End General.

(** C105: an actual multipart body matches an expected one exactly when both can be read and every expected part agrees with the part
    it is compared with. *)
Theorem C105_multipart : forall w x sp c eh eb ah ab, cat_name (matchers c) = CBody ->
  (match_mime_multipart w x sp eh eb ah ab c = [] <->
   exists es as_, parse_multipart w sp (body_bytes eb) eh = Some es /\ parse_multipart w sp (body_bytes ab) ah = Some as_ /\ body_agrees w x sp c es as_).
Proof.
  intros w x sp c eh eb ah ab B. unfold match_mime_multipart, multipart_inner.
  destruct (parse_multipart w sp (body_bytes eb) eh) as [es|]; destruct (parse_multipart w sp (body_bytes ab) ah) as [as_|];
    try (split; [discriminate|]; intros (? & ? & E1 & E2 & _); discriminate).
  destruct (match_parts w x sp es as_ c) as [ms| |] eqn:M; split.
  - intro H. subst ms. exists es, as_. split; [reflexivity|]. split; [reflexivity|]. apply (parts_iff w x sp c B). exact M.
  - intros (es' & as' & E1 & E2 & H). injection E1 as <-. injection E2 as <-. apply (parts_iff w x sp c B) in H. congruence.
  - discriminate.
  - intros (es' & as' & E1 & E2 & H). injection E1 as <-. injection E2 as <-. apply (parts_iff w x sp c B) in H. congruence.
  - discriminate.
  - intros (es' & as' & E1 & E2 & H). injection E1 as <-. injection E2 as <-. apply (parts_iff w x sp c B) in H. congruence.
Qed.
