(** C107: requests and responses described with the builders of the consumer DSL. *)
From Coq Require Import Ascii String List Arith NArith ZArith Lia Bool Permutation Sorted.
From Verif Require Import Base PathExp PathExpProofs SpecPath PropPath Json Text TextProofs MatchingRules RulesV2 SpecRules Matchers JsonCompare SpecMatch SpecValues
  CompareProofs CompareProofs2 SpecBody BodyProofs Headers Query ContentType SpecXml SpecQuery SpecHeaders SpecHttp Http QueryProofs PropHttp PropHttp2 PropHeaders Pattern SpecPattern PatternProofs PropPattern PropPattern2
  SpecParams PropParams PropParams2 PropXml Generators Builder SpecBuilder BuilderProofs BuilderProofs2 BuilderProofs3 BuilderProofs4.
Import ListNotations.
Open Scope N_scope.
Local Opaque show_N.

Lemma f2_impl : forall A B (P Q : A -> B -> Prop) l l', (forall a b, P a b -> Q a b) -> Forall2 P l l' -> Forall2 Q l l'.
Proof. intros A B P Q l l' H F. induction F; constructor; auto. Qed.

(** ** All rules are simple ones *)
Definition all_simple (m : matching_rules) : Prop := forall n c e r, In (n, c) m -> In e (cat_rules c) -> In r (rl_rules (snd e)) -> simple r.
Definition list_simple (l : list (docpath * rulelist)) : Prop := forall e r, In e l -> In r (rl_rules (snd e)) -> simple r.
Lemma hm_push_simple : forall k r l, simple r -> list_simple l -> list_simple (hm_push k r And l).
Proof.
  intros k r l S H. induction l as [|[k' rl] l IH]; cbn [hm_push].
  - intros e r0 [<-|[]] [<-|[]]. exact S.
  - destruct (path_eqb k k'); intros e r0 [<-|J] K.
    + cbn [snd rl_rules] in K. apply in_app_or in K as [K|[<-|[]]]; [|exact S]. apply (H (k', rl) r0 (or_introl eq_refl) K).
    + apply (H e r0); [right; exact J | exact K].
    + apply (H (k', rl) r0 (or_introl eq_refl) K).
    + apply (IH (fun e1 r1 J1 => H e1 r1 (or_intror J1)) e r0 J K).
Qed.
Lemma push_rules_simple : forall k rs l, (forall r, In r rs -> simple r) -> list_simple l -> list_simple (push_rules k l rs).
Proof.
  intros k rs. induction rs as [|r rs IH]; intros l S H; [exact H|]. cbn [push_rules fold_left]. apply IH; [intros r0 J; apply S; right; exact J|].
  apply hm_push_simple; [apply S; left; reflexivity | exact H].
Qed.
Lemma push_steps_simple : forall k rs l, (forall t r, In (t, r) rs -> simple r) -> list_simple l -> list_simple (push_steps k l rs).
Proof.
  intros k rs. induction rs as [|[t r] rs IH]; intros l S H; [exact H|]. cbn [push_steps fold_left]. apply IH; [intros t0 r0 J; apply (S t0); right; exact J|].
  apply hm_push_simple; [apply (S t); left; reflexivity | exact H].
Qed.
Lemma with_simple : forall n f m, (forall c, list_simple (cat_rules c) -> list_simple (cat_rules (f c))) -> all_simple m -> all_simple (with_category n f m).
Proof.
  intros n f m Hf. induction m as [|[n' c] m IH]; intros H; cbn [with_category].
  - intros n0 c0 e r [J|[]] K L. injection J as <- <-. refine (Hf (cat_empty n) _ e r K L). intros e0 r0 [].
  - assert (all_simple m) as Hm by (intros n0 c0 e r J; apply (H n0 c0 e r); right; exact J).
    destruct (cat_eqb n n'); intros n0 c0 e r [J|J] K L.
    + injection J as <- <-. refine (Hf c _ e r K L). intros e0 r0. apply (H n' c). left. reflexivity.
    + exact (Hm n0 c0 e r J K L).
    + exact (H n0 c0 e r (or_introl J) K L).
    + exact (IH Hm n0 c0 e r J K L).
Qed.
Lemma s_extract_simple : forall p k c, list_simple (cat_rules c) -> list_simple (cat_rules (s_extract p k c)).
Proof. intros p k c H. rewrite s_extract_rules. apply push_rules_simple; [apply s_rules_simple | exact H]. Qed.

Section Built.
Variable w : world.
Variable x : externals.
Notation lower := (to_lower w).
Notation sp := (is_space w).
Lemma part_step_simple : forall c b, (forall p, c = PJsonBody p -> proper p) -> all_simple (pb_rules b) -> all_simple (pb_rules (part_step w x b c)).
Proof.
  intros c b P H. destruct c as [n v|n ex v|t|t ct|p|p|p ct]; cbn; try exact H; try (apply with_simple; [intros; apply s_extract_simple; assumption | exact H]).
  apply with_simple; [|exact H]. intros c Hc. rewrite (extract_rel p (P p eq_refl)), add_all_rules. apply push_steps_simple; [exact (rel_simple p) | exact Hc].
Qed.
Lemma request_simple : forall h b, bodies_sane (part_calls h) -> all_simple (pb_rules (rb_part b)) -> all_simple (pb_rules (rb_part (fold_left (request_step w x) h b))).
Proof.
  induction h as [|c h IH]; intros b S H; [exact H|]. cbn [fold_left]. apply IH.
  - intros p J. apply S. unfold part_calls. cbn [flat_map]. apply in_or_app. right. exact J.
  - destruct c as [m|p|e p|n v|pc]; cbn; try exact H; try (apply with_simple; [intros; apply s_extract_simple; assumption | exact H]).
    apply part_step_simple; [|exact H]. intros p ->. apply S. left. reflexivity.
Qed.
Lemma parts_simple : forall l b, bodies_sane l -> all_simple (pb_rules b) -> all_simple (pb_rules (fold_left (part_step w x) l b)).
Proof.
  induction l as [|c l IH]; intros b S H; [exact H|]. cbn [fold_left]. apply IH; [intros p J; apply S; right; exact J|].
  apply part_step_simple; [intros p ->; apply S; left; reflexivity | exact H].
Qed.
Lemma shuffled_ok : forall m m', placed m -> all_simple m -> shuffled m m' -> rules_in_place m'.
Proof.
  intros m m' P A S n c J. destruct (shuffled_in m m' n c S J) as (c0 & J0 & E & Pm). split; [rewrite E; apply P, J0|].
  intros e vs Ie Ir. assert (In e (cat_rules c0)) as K by (eapply Permutation_in; [apply Permutation_sym, Pm | exact Ie]).
  destruct (A n c0 e _ J0 K Ir).
Qed.

(** ** Methods and paths *)
Lemma last_cons : forall A (v : A) l d, last (v :: l) d = last l v.
Proof.
  intros A v l. revert v. induction l as [|y l IH]; intros v d; [reflexivity|]. change (last (v :: y :: l) d) with (last (y :: l) d). rewrite !IH. reflexivity.
Qed.
Lemma method_after : forall h b, rb_method (fold_left (request_step w x) h b) = last (methods h) (rb_method b).
Proof.
  induction h as [|c h IH]; intro b; [reflexivity|]. cbn [fold_left]. rewrite IH. unfold methods. cbn [flat_map].
  destruct c; try reflexivity. cbn [app]. rewrite last_cons. reflexivity.
Qed.
Lemma path_after : forall h b, rb_path (fold_left (request_step w x) h b) = last (map s_example (paths h)) (rb_path b).
Proof.
  induction h as [|c h IH]; intro b; [reflexivity|]. cbn [fold_left]. rewrite IH. unfold paths. cbn [flat_map].
  destruct c; try reflexivity; cbn [app map]; rewrite last_cons; reflexivity.
Qed.
Lemma path_rules : forall ps, fold_left push_path ps [] =
  match flat_map s_rules ps with [] => [] | rs => [(path_empty, mkRules rs And false)] end.
Proof.
  intro ps.
  assert (forall rs0 rs, rs0 <> [] -> push_rules path_empty [(path_empty, mkRules rs0 And false)] rs = [(path_empty, mkRules (rs0 ++ rs) And false)]) as H1.
  { intros rs0 rs. revert rs0. induction rs as [|r rs IH]; intros rs0 N; [rewrite app_nil_r; reflexivity|]. cbn [push_rules fold_left hm_push].
    change (path_eqb path_empty path_empty) with true. cbn [rl_rules rl_logic rl_cascaded]. fold (push_rules path_empty [(path_empty, mkRules (rs0 ++ [r]) And false)] rs).
    rewrite IH, <- app_assoc; [reflexivity | destruct rs0; discriminate]. }
  assert (forall rs, push_rules path_empty [] rs = match rs with [] => [] | _ => [(path_empty, mkRules rs And false)] end) as H2.
  { intros [|r rs]; [reflexivity|]. cbn [push_rules fold_left hm_push]. fold (push_rules path_empty [(path_empty, mkRules [r] And false)] rs).
    rewrite H1; [reflexivity | discriminate]. }
  induction ps as [|p ps IH] using rev_ind; [reflexivity|]. rewrite fold_left_app, flat_map_app. cbn [fold_left flat_map]. rewrite app_nil_r, IH. unfold push_path.
  destruct (flat_map s_rules ps) as [|r rs]; [rewrite H2; destruct (s_rules p); reflexivity|]. rewrite H1; [|discriminate]. reflexivity.
Qed.
Lemma path_accepted_iff : forall m ps a, cat_rules m = fold_left push_path ps [] ->
  (path_ok w m (last (map s_example ps) (S_ "/")) a <-> path_accepted w ps a).
Proof.
  intros m ps a E. rewrite path_rules in E. unfold path_ok, path_accepted.
  assert (some_rule ps <-> flat_map s_rules ps <> []) as SR.
  { rewrite some_rule_iff. split.
    - intros (r & p & J & K) Z. assert (In r (flat_map s_rules ps)) as X by (apply in_flat_map; exists p; auto). rewrite Z in X. destruct X.
    - intro Z. destruct (flat_map s_rules ps) as [|r rs] eqn:F; [congruence|]. assert (In r (flat_map s_rules ps)) as X by (rewrite F; left; reflexivity).
      apply in_flat_map in X as (p & J & K). exists r, p. auto. }
  rewrite E, SR, (all_ask_iff w ps a (last (map s_example ps) (S_ "/")) false). destruct (flat_map s_rules ps) as [|r rs] eqn:F.
  - split.
    + intros [[_ H]|(q & rl & rest & Z & _)]; [right; split; [tauto | symmetry; exact H] | discriminate].
    + intros [[Z _]|[_ H]]; [congruence | left; split; [reflexivity | symmetry; exact H]].
  - split.
    + intros [[Z _]|(q & rl & rest & Z & _ & Co)]; [discriminate|]. injection Z as <- <- <-. left. split; [discriminate|].
      cbn [rl_logic rl_rules rl_cascaded combined] in Co. intros r0 (p & J & K). apply Co. rewrite <- F. apply in_flat_map. exists p. auto.
    + intros [[_ H]|[Z _]]; [|exfalso; apply Z; discriminate]. right. exists path_empty, (mkRules (r :: rs) And false), []. split; [reflexivity|]. split; [discriminate|].
      cbn [rl_logic rl_rules rl_cascaded combined]. intros r0 J. apply H. rewrite <- F in J. apply in_flat_map in J as (p & Jp & K). exists p. auto.
Qed.

(** ** Headers *)
Lemma headers_after : forall l hs rs e, headers_sane lower (header_calls l) ->
  hs = pb_headers (fold_left (part_step w x) l no_part) -> Permutation (fold_left push_named (header_calls l) []) (cat_rules rs) ->
  (cat_rules rs <> [] -> cat_name rs <> CBody) ->
  part_readable sp lower hs -> part_readable sp lower e -> part_unique lower e ->
  (part_headers_ok w (lowered w rs) hs e <-> headers_accepted w (header_calls l) e).
Proof.
  intros l hs rs e [SA SB] Eh P NB RH RE U. set (L := header_calls l) in *.
  destruct (part_headers_after w x l [] no_part) as [(UM & HA & HB) HN].
  { split; [constructor|]. split; [intros ? ? [] | intros ? ? []]. }
  { split; reflexivity. }
  cbv zeta in *. cbn [app] in *. fold L in HA, HB, HN. rewrite <- Eh in *.
  assert (FL : forall t r, In (t, r) (named_rel L) -> exists n, t = [TField n] /\ ascii_text n).
  { intros t r J. apply in_named_rel in J as (n & v & J & -> & _). exists n. split; [reflexivity | apply (SA n v J)]. }
  assert (INJ : forall n n' r r', In ([TField n], r) (named_rel L) -> In ([TField n'], r') (named_rel L) -> lower n = lower n' -> n = n').
  { intros n n' r r' J J' E. apply in_named_rel in J as (n1 & v & J & E1 & K). apply in_named_rel in J' as (n1' & v' & J' & E1' & K').
    injection E1 as <-. injection E1' as <-. apply (SB n v n' v' J J'); [| |exact E]; apply has_rule_iff; intro Z; [rewrite Z in K; destruct K | rewrite Z in K'; destruct K']. }
  assert (T : tidy (cat_rules rs) (named_rel L)).
  { apply (tidy_perm _ _ _ P). apply (named_tidy L [] [] tidy_nil). }
  pose proof (tidy_lowered w rs (named_rel L) T FL INJ) as T1. set (R := low_rel w (named_rel L)) in *.
  assert (InR : forall t r, In (t, r) R <-> exists n v, In (n, v) L /\ t = [TField (lower n)] /\ In r (s_rules v)).
  { intros t r. unfold R, low_rel. rewrite in_map_iff. split.
    - intros ([t0 r0] & E & J). apply in_named_rel in J as (n & v & J & -> & K). cbn [fst snd map] in E. injection E as <- <-. exists n, v. auto.
    - intros (n & v & J & -> & K). exists ([TField n], r). split; [reflexivity|]. apply in_named_rel. exists n, v. auto. }
  assert (T2 : tidy (cat_rules (lowered w (lowered w rs))) R).
  { assert (low_rel w R = R) as <-.
    { unfold R at 1. unfold low_rel at 1 2. rewrite map_map. apply map_ext_in. intros [t r] J. destruct (FL t r J) as (n & -> & A). cbn [fst snd map]. rewrite (ascii_lowered w n A). reflexivity. }
    apply tidy_lowered; [exact T1| |].
    - intros t r J. apply InR in J as (n & v & J & -> & _). exists (lower n). split; [reflexivity|].
      destruct (SA n v J) as [A _]. rewrite (lower_map w n A). intros c Jc. apply in_map_iff in Jc as (d & <- & Jd). specialize (A d Jd). unfold ascii_lower_char. destruct ((65 <=? d) && (d <=? 90)) eqn:Q; [|exact A].
      apply andb_true_iff in Q as [_ Q]. apply N.leb_le in Q. lia.
    - intros n n' r r' J J' E. apply InR in J as (m & v & J & E1 & _). apply InR in J' as (m' & v' & J' & E1' & _). injection E1 as ->. injection E1' as ->.
      rewrite !ascii_lowered in E; [exact E | apply (SA m' v' J') | apply (SA m v J)]. }
  assert (FL' : forall t r, In (t, r) R -> exists n, t = [TField n]) by (intros t r J; apply InR in J as (n & v & _ & -> & _); eexists; reflexivity).
  assert (NBl : cat_rules (lowered w rs) <> [] -> cat_name (lowered w rs) <> CBody).
  { intro H. change (cat_name (lowered w rs)) with (cat_name rs). apply NB. intro E. apply H. unfold lowered, header_context. cbn [matchers cat_rules]. rewrite E. reflexivity. }
  assert (ONE : forall k e0 m a, hs = Some m -> In (k, e0) m -> (structured_name lower k -> forall v, In v a -> exists h, reads_as sp h v) ->
    (header_values_ok w (lowered w rs) k e0 a <-> header_accepted w k (values_of lower L k) a)).
  { intros k e0 m a Em J RA. rewrite Em in *. cbn [header_list] in *. destruct (HA k e0 J) as [NE Ev].
    assert (exists n v, In (n, v) L /\ lower n = lower k) as (n & v & Jn & En).
    { destruct (values_of lower L k) as [|v0 vs] eqn:V; [congruence|]. assert (In v0 (values_of lower L k)) as X by (rewrite V; left; reflexivity).
      unfold values_of in X. apply in_map_iff in X as ([n v] & _ & X). apply filter_In in X as [X1 X2]. exists n, v. split; [exact X1|]. apply str_eqb_eq in X2. exact X2. }
    apply (header_values_iff w (lowered w rs) R k (values_of lower L k) e0 a NBl T1 T2 FL').
    - intro r. rewrite InR. split.
      + intros (n1 & v1 & J1 & E1 & K). injection E1 as E1. exists v1. split; [|exact K]. unfold values_of. apply in_map_iff. exists (n1, v1). split; [reflexivity|].
        apply filter_In. split; [exact J1|]. cbn [fst]. apply str_eqb_eq. symmetry. exact E1.
      + intros (v1 & J1 & K). unfold values_of in J1. apply in_map_iff in J1 as ([n1 v2] & E2 & J1). cbn [snd] in E2. subst v2. apply filter_In in J1 as [J1 J2].
        cbn [fst] in J2. apply str_eqb_eq in J2. exists n1, v1. split; [exact J1|]. split; [rewrite J2; reflexivity | exact K].
    - rewrite <- En. apply (SA n v Jn).
    - exact NE.
    - exact Ev.
    - intros SN v0 Jv. exact (RH k e0 v0 J SN Jv).
    - exact RA. }
  unfold headers_accepted. destruct hs as [m|].
  2:{ cbn [part_headers_ok]. rewrite (proj1 HN eq_refl). split; [intros _ ? ? [] | trivial]. }
  cbn [part_headers_ok header_list] in *. destruct e as [A|].
  - split.
    + intros H n p J. destruct (HB n p J) as (k & e0 & Je & Ek). destruct (H k e0 Je) as (a & Ha & V). exists A, a. split; [reflexivity|].
      assert (has_header lower A n a) as Hn by (destruct Ha as (k' & I1 & I2); exists k'; split; [exact I1 | congruence]). split; [exact Hn|].
      apply (ONE k e0 m a eq_refl Je) in V.
      * unfold header_accepted in *. rewrite (values_of_lower w L k n Ek) in V. destruct V as [V|[V1 V2]]; [left; exact V|]. right. split; [exact V1|].
        fold (texts_of w k (values_of lower L n)) in V2. fold (texts_of w n (values_of lower L n)). rewrite (texts_lower w k n _ Ek) in V2.
        unfold values_agree in *. destruct (texts_of w n (values_of lower L n)); [exact V2|]. destruct V2 as (a1 & a2 & E1 & F1 & F2). exists a1, a2. split; [exact E1|]. split; [|exact F2].
        eapply f2_impl; [|exact F1]. intros u v. unfold value_agrees, structured_name. rewrite Ek. tauto.
      * intros SN v Jv. destruct Ha as (k' & I1 & I2). apply (RE k' a v I1); [|exact Jv]. unfold structured_name. rewrite I2. exact SN.
    + intros H k e0 Je. destruct (HA k e0 Je) as [NE _]. assert (exists n v, In (n, v) L /\ lower n = lower k) as (n & v & Jn & En).
      { destruct (values_of lower L k) as [|v0 vs] eqn:V; [congruence|]. assert (In v0 (values_of lower L k)) as X by (rewrite V; left; reflexivity).
        unfold values_of in X. apply in_map_iff in X as ([n v] & _ & X). apply filter_In in X as [X1 X2]. exists n, v. split; [exact X1|]. apply str_eqb_eq in X2. exact X2. }
      destruct (H n v Jn) as (A' & a & EA & (k' & I1 & I2) & V). injection EA as <-. exists a. split; [exists k'; split; [exact I1 | congruence]|].
      apply (ONE k e0 m a eq_refl Je).
      * intros SN v0 Jv. apply (RE k' a v0 I1); [|exact Jv]. unfold structured_name. rewrite I2, En. exact SN.
      * unfold header_accepted in *. rewrite (values_of_lower w L k n (eq_sym En)). destruct V as [V|[V1 V2]]; [left; exact V|]. right. split; [exact V1|].
        fold (texts_of w k (values_of lower L n)). fold (texts_of w n (values_of lower L n)) in V2. rewrite (texts_lower w k n _ (eq_sym En)).
        unfold values_agree in *. destruct (texts_of w n (values_of lower L n)); [exact V2|]. destruct V2 as (a1 & a2 & E1 & F1 & F2). exists a1, a2. split; [exact E1|]. split; [|exact F2].
        eapply f2_impl; [|exact F1]. intros u v0. unfold value_agrees, structured_name. rewrite En. tauto.
  - cbn [part_headers_ok]. split.
    + intros -> n p J. destruct (HB n p J) as (k & a & [] & _).
    + intro H. destruct m as [|[k e0] m]; [reflexivity|]. exfalso. destruct (HA k e0 (or_introl eq_refl)) as [NE _].
      destruct (values_of lower L k) as [|v0 vs] eqn:V; [congruence|]. assert (In v0 (values_of lower L k)) as X by (rewrite V; left; reflexivity).
      unfold values_of in X. apply in_map_iff in X as ([n v] & _ & X). apply filter_In in X as [X1 X2]. destruct (H n v X1) as (A' & a & EA & _). discriminate.
Qed.

(** ** The requests accepted *)
(** The request described by a sequence of calls accepts exactly the requests with the method given last, a path, query parameters and
    headers as they were described, and a body that matches. *)
Theorem C107_request : forall h e a r, built_request w x h e ->
  params_sane h -> headers_sane lower (header_calls (part_calls h)) -> bodies_sane (part_calls h) ->
  one_entry_each (req_query a) -> part_unique lower (req_headers a) ->
  part_readable sp lower (req_headers e) -> part_readable sp lower (req_headers a) ->
  match_request w x e a = Ok r ->
  (all_matched r = true <->
   lower (last (methods h) (S_ "GET")) = lower (req_method a) /\
   path_accepted w (paths h) (req_path a) /\
   query_accepted w h (req_query a) /\
   headers_accepted w (header_calls (part_calls h)) (req_headers a) /\
   match_body w x (req_part e) (req_part a) (mkCtx false (rules_for CBody (req_rules e)))
     (mkCtx false (lowered w (rules_for CHeader (req_rules e)))) = Ok BodyOk).
Proof.
  intros h e a r (EM & EP & EQ & EH & EB & SH) PS HS BS QA U RE RA M.
  destruct (request_content w x h request_start BS) as (CH & CB & CP & CQ & PL). cbv zeta in *.
  specialize (PL (fun _ _ J => match J with end)).
  assert (all_simple (req_rules (build_request w x h))) as AS by (apply request_simple; [exact BS | intros ? ? ? ? []]).
  pose proof (shuffled_ok _ _ PL AS SH) as RP.
  assert (NB : forall n, n <> CBody -> cat_rules (rules_for n (req_rules e)) <> [] -> cat_name (rules_for n (req_rules e)) <> CBody).
  { intros n Hn H. destruct (content_in n (req_rules e) H) as (c & J & ->). rewrite (proj1 (RP n c J)). exact Hn. }
  assert (CT : forall n, Permutation (content n (req_rules (build_request w x h))) (cat_rules (rules_for n (req_rules e)))) by (intro n; apply (shuffled_content _ _ n SH)).
  assert (one_entry_each (req_query e)) as QE by (rewrite EQ; apply built_query_once).
  rewrite (C106_request w x e a r RP M QE QA U RE RA).
  assert (req_method e = last (methods h) (S_ "GET")) as -> by (rewrite EM; apply method_after).
  assert (req_path e = last (map s_example (paths h)) (S_ "/")) as -> by (rewrite EP; apply path_after).
  assert (path_ok w (rules_for CPath (req_rules e)) (last (map s_example (paths h)) (S_ "/")) (req_path a) <-> path_accepted w (paths h) (req_path a)) as ->.
  { apply path_accepted_iff. specialize (CT CPath). unfold content in CP at 2. cbn [request_start rb_part no_part pb_rules rules_for cat_rules cat_empty] in CP.
    change (req_rules (build_request w x h)) with (pb_rules (rb_part (fold_left (request_step w x) h request_start))) in CT. rewrite CP in CT. rewrite path_rules in *.
    destruct (flat_map s_rules (paths h)); [apply Permutation_nil; exact CT | apply Permutation_length_1_inv; exact CT]. }
  assert (query_ok w (rules_for CQuery (req_rules e)) (req_query e) (req_query a) <-> query_accepted w h (req_query a)) as ->.
  { assert (tidy (cat_rules (rules_for CQuery (req_rules e))) (named_rel (query_calls h))) as T.
    { apply (tidy_perm _ _ _ (CT CQuery)). change (req_rules (build_request w x h)) with (pb_rules (rb_part (fold_left (request_step w x) h request_start))). rewrite CQ.
      apply (named_tidy (query_calls h) [] [] tidy_nil). }
    assert (forall t r0, In (t, r0) (named_rel (query_calls h)) -> exists n, t = [TField n]) as FL.
    { intros t r0 J. apply in_named_rel in J as (n & v & _ & -> & _). eexists. reflexivity. }
    assert (forall k a0, params h k <> [] -> (param_ok w (rules_for CQuery (req_rules e)) k (map s_example (params h k)) a0 <-> values_accepted w (params h k) a0)) as ONE.
    { intros k a0 N. apply (values_iff w _ (named_rel (query_calls h)) k (params h k)); [apply NB; discriminate | exact T | exact FL | apply param_rules | apply PS, N | exact N | reflexivity]. }
    unfold query_ok, query_accepted. rewrite EQ. split.
    - intros [H1 H2] k. specialize (H1 k). specialize (H2 k). rewrite built_query in H1, H2. destruct (params_of (req_query a) k) as [a0|].
      + destruct (H2 a0 eq_refl) as [e0 E0]. assert (params h k <> []) as N by (destruct (params h k); discriminate). split; [exact N|].
        destruct (H1 (map s_example (params h k))) as (a1 & E1 & V); [destruct (params h k); [congruence | reflexivity]|]. injection E1 as <-. apply (ONE k a0 N), V.
      + destruct (params h k) as [|p ps] eqn:Eps; [reflexivity|]. destruct (H1 _ eq_refl) as (a1 & E1 & _). discriminate.
    - intro H. split; intros k; specialize (H k); rewrite built_query.
      + intros e0 E0. assert (params h k <> []) as N by (destruct (params h k); discriminate).
        assert (e0 = map s_example (params h k)) as -> by (destruct (params h k); [discriminate | injection E0 as <-; reflexivity]).
        destruct (params_of (req_query a) k) as [a0|]; [|congruence]. exists a0. split; [reflexivity|]. apply (ONE k a0 N), H.
      + intros a0 E0. rewrite E0 in H. destruct H as [N _]. destruct (params h k); [congruence | eexists; reflexivity]. }
  assert (part_headers_ok w (lowered w (rules_for CHeader (req_rules e))) (req_headers e) (req_headers a) <-> headers_accepted w (header_calls (part_calls h)) (req_headers a)) as ->; [|reflexivity].
  apply headers_after; try assumption.
  - rewrite EH. apply request_part; reflexivity.
  - specialize (CT CHeader). change (req_rules (build_request w x h)) with (pb_rules (rb_part (fold_left (request_step w x) h request_start))) in CT. rewrite CH in CT. exact CT.
  - apply NB. discriminate.
Qed.
End Built.
