(** The header part of a request plan without rules. *)
From Coq Require Import Ascii String List Arith NArith ZArith Lia Bool Permutation.
From Verif Require PropBroker2 PropVerifier.
From Verif Require Import Base PathExp Json Text TextProofs MatchingRules Matchers JsonCompare Headers HeaderProofs2 Query ContentType Http Base64 Engine EnginePlan EngineProofs SpecHeaders SpecEngine EngineJson EngineJudge EngineParts EngineRules EngineRequest.
Import ListNotations.
Open Scope N_scope.

Section HeaderPart.
Variable w : world.
Variable x : externals.
Variable ee : engine_texts.
Variable actual : request.
Notation evals := (evals w x ee actual).
Notation evs := (evs w x ee actual).
Notation tells := (tells w x ee actual).
Notation lower := (to_lower w).
Notation sp := (is_space w).

(** ** The actual headers *)
Lemma lowered_from : forall (l acc : hmap), NoDup (map (fun kv => lower (fst kv)) l) -> (forall kv, In kv l -> obj_get (lower (fst kv)) acc = None) ->
  forall n us, obj_get n (fold_left (fun m kv => sm_insert (lower (fst kv)) (snd kv) m) l acc) = Some us <->
    obj_get n acc = Some us \/ exists k, In (k, us) l /\ lower k = n.
Proof.
  induction l as [|[k vs] l IH]; intros acc Hn Hd n us.
  - cbn. split; [tauto|]. intros [H|[k [[] _]]]. exact H.
  - cbn [fold_left fst snd]. cbn [map fst] in Hn. apply NoDup_cons_iff in Hn as [Hk Hn]. rewrite IH; [|exact Hn|].
    + rewrite sm_insert_get. destruct (str_eqb_spec n (lower k)) as [->|Hne].
      * split.
        -- intros [E|[k' [H1 H2]]]; [injection E as <-; right; exists k; split; [now left | reflexivity] | right; exists k'; split; [now right | exact H2]].
        -- intros [E|[k' [[E|H1] H2]]].
           ++ pose proof (Hd (k, vs) (or_introl eq_refl)) as Hd'. cbn [fst] in Hd'. pose proof (eq_trans (eq_sym Hd') E) as E'. discriminate E'.
           ++ injection E as -> ->. now left.
           ++ right. eauto.
      * split.
        -- intros [E|[k' [H1 H2]]]; [now left | right; exists k'; split; [now right | exact H2]].
        -- intros [E|[k' [[E|H1] H2]]]; [now left | injection E as -> ->; congruence | right; eauto].
    + intros [k' vs'] H. cbn [fst]. rewrite sm_insert_get. destruct (str_eqb_spec (lower k') (lower k)) as [E|E].
      * exfalso. apply Hk. rewrite <- E. apply in_map_iff. exists (k', vs'). split; [reflexivity | exact H].
      * apply (Hd (k', vs')). now right.
Qed.
Lemma lowered n us : unique_names lower (or_else_nil (req_headers actual)) ->
  (obj_get n (lower_headers w (req_headers actual)) = Some us <-> exists k, In (k, us) (or_else_nil (req_headers actual)) /\ lower k = n).
Proof.
  intro H. unfold lower_headers. rewrite (lowered_from _ []); [|exact H | reflexivity]. split; [intros [E|E]; [discriminate | exact E] | now right].
Qed.
Lemma lowered_keys n : In n (map fst (lower_headers w (req_headers actual))) <-> exists k us, In (k, us) (or_else_nil (req_headers actual)) /\ lower k = n.
Proof.
  unfold lower_headers. change (dflt (req_headers actual) []) with (or_else_nil (req_headers actual)).
  assert (G : forall (l acc : hmap), In n (map fst (fold_left (fun m kv => sm_insert (lower (fst kv)) (snd kv) m) l acc)) <-> In n (map fst acc) \/ exists k us, In (k, us) l /\ lower k = n).
  { induction l as [|[k vs] l IH]; intro acc.
    - cbn. split; [tauto|]. intros [H|[k [us [[] _]]]]. exact H.
    - cbn [fold_left fst snd]. rewrite IH. change (map fst (sm_insert (lower k) vs acc)) with (keys (sm_insert (lower k) vs acc)). rewrite sm_insert_keys. unfold keys. split.
      + intros [[->|H]|[k' [us [H1 H2]]]]; [right; exists k, vs; split; [now left | reflexivity] | now left | right; exists k', us; split; [now right | exact H2]].
      + intros [H|[k' [us [[E|H1] H2]]]]; [tauto | injection E as -> ->; left; left; congruence | right; eauto]. }
  rewrite G. cbn. tauto.
Qed.
Lemma resolve_header k : k <> S_ "*" ->
  resolve w x actual (join (known_path w "$.headers") k) = Ok (found_values (obj_get (lower (looked_up (S_ "headers") k)) (lower_headers w (req_headers actual)))).
Proof.
  intro Hk. destruct (joined_tokens (known_path w "$.headers") (S_ "headers") k eq_refl Hk) as [t [Ht [Hs [Hl _]]]].
  unfold resolve, first_field, last_field, is_wildcard, path_last. rewrite Ht.
  replace (first_field_of (rev [TRoot; TField (S_ "headers"); t])) with (Some (looked_up (S_ "headers") k)) by (symmetry; exact Hl).
  replace (first_field_of [TRoot; TField (S_ "headers"); t]) with (Some (S_ "headers")) by reflexivity.
  replace (str_eqb (S_ "headers") (S_ "method")) with false by reflexivity.
  replace (str_eqb (S_ "headers") (S_ "path")) with false by reflexivity.
  replace (str_eqb (S_ "headers") (S_ "query")) with false by reflexivity. rewrite str_eqb_refl.
  cbn [length rev app Nat.eqb orb andb dflt]. destruct t; try congruence; reflexivity.
Qed.
Lemma resolve_header_first k u us : k <> S_ "*" -> k <> S_ "[*]" ->
  obj_get (lower (looked_up (S_ "headers") k)) (lower_headers w (req_headers actual)) = Some (u :: us) ->
  resolve w x actual (join_index (join (known_path w "$.headers") k) 0) = Ok (NString u).
Proof.
  intros Hk Hk2 Hg. destruct (joined_tokens (known_path w "$.headers") (S_ "headers") k eq_refl Hk) as [t [Ht [Hs [Hl Hi]]]].
  assert (E : join_index (join (known_path w "$.headers") k) 0 = push_index (join (known_path w "$.headers") k) 0).
  { unfold join_index, path_last. rewrite Ht. cbn [rev app]. destruct t; try reflexivity; [congruence|]. destruct (Hk2 (proj1 Hi eq_refl)). }
  rewrite E. unfold push_index, push. unfold resolve, first_field, last_field, is_wildcard, path_last. cbn [path_tokens]. rewrite Ht. cbn [app].
  replace (first_field_of (rev [TRoot; TField (S_ "headers"); t; TIndex 0])) with (Some (looked_up (S_ "headers") k)) by (symmetry; exact Hl).
  replace (first_field_of [TRoot; TField (S_ "headers"); t; TIndex 0]) with (Some (S_ "headers")) by reflexivity.
  replace (str_eqb (S_ "headers") (S_ "method")) with false by reflexivity.
  replace (str_eqb (S_ "headers") (S_ "path")) with false by reflexivity.
  replace (str_eqb (S_ "headers") (S_ "query")) with false by reflexivity. rewrite str_eqb_refl.
  cbn [length rev app Nat.eqb orb andb dflt]. rewrite Hg. reflexivity.
Qed.

(** ** Structured values *)
Lemma read_structured h v : structured_ok sp h -> written sp h v ->
  exists ps, first_and_rest (strip_parts w v) = (media h, ps) /\ (forall n, obj_get n (parse_parameters w ps) = param n (params h)).
Proof.
  intros H1 H2. destruct (strip_written w h v H1 H2) as [parts [E F]]. exists parts. rewrite E. split; [reflexivity|].
  intro n. now apply (parameters_get w).
Qed.
Lemma structured_unique h1 h2 v : structured_ok sp h1 -> written sp h1 v -> structured_ok sp h2 -> written sp h2 v ->
  media h1 = media h2 /\ forall n, param n (params h1) = param n (params h2).
Proof.
  intros A1 A2 B1 B2. destruct (read_structured h1 v A1 A2) as [p1 [E1 F1]]. destruct (read_structured h2 v B1 B2) as [p2 [E2 F2]].
  rewrite E1 in E2. injection E2 as Em Ep. subst p2. split; [exact Em|]. intro n. now rewrite <- F1, F2.
Qed.
Lemma param_in n : forall ps v, param n ps = Some v -> exists u, In (n, u) ps.
Proof.
  induction ps as [|[n' v'] ps IH]; intros v; [discriminate|]. cbn [param]. destruct (param n ps) as [u|].
  - intros _. destruct (IH u eq_refl) as [u' H]. exists u'. now right.
  - destruct (str_eqb_spec n n') as [->|_]; [|discriminate]. intros _. exists v'. now left.
Qed.

Definition header_object (m : str) (ps : list (str * str)) : json :=
  JObj [(S_ "parameters", JObj (obj_of_list (map (fun kv => (fst kv, JStr (snd kv))) ps))); (S_ "value", JStr m)].
Lemma parsed_object u m ps : first_and_rest (strip_parts w u) = (m, ps) -> parsed_header w u = header_object m (parse_parameters w ps).
Proof. intro E. unfold parsed_header. rewrite E. reflexivity. Qed.
Lemma object_parameters m ps : NoDup (keys ps) -> forall n, at_steps (header_object m ps) [inl (S_ "parameters"); inl n] = option_map JStr (obj_get n ps).
Proof.
  intros Hn n. unfold header_object. cbn [at_steps step_in].
  replace (obj_get (S_ "parameters") _) with (Some (JObj (obj_of_list (map (fun kv => (fst kv, JStr (snd kv))) ps)))) by reflexivity.
  rewrite PropBroker2.of_list_get, PropVerifier.last_entry_nodup.
  - assert (E : obj_get n (map (fun kv : str * str => (fst kv, JStr (snd kv))) ps) = option_map JStr (obj_get n ps)).
    { clear. induction ps as [|[k v] ps IH]; [reflexivity|]. cbn [map fst snd obj_get]. destruct (str_eqb n k); [reflexivity | exact IH]. }
    rewrite E. destruct (obj_get n ps); reflexivity.
  - unfold keys. rewrite map_map. exact Hn.
Qed.

Lemma tells_if_else st c c' yes no P Q (b : bool) : evals st c st c' -> quiet c' -> is_truthy (pn_value c') = b -> quiet yes -> quiet no ->
  (b = true -> tells st [yes] P) -> (b = false -> tells st [no] Q) -> tells st [action "if" [c; yes; no]] (if b then P else Q).
Proof.
  intros Hc Hq Hb Hy Hn HP HQ. destruct b.
  - destruct (tells_inv _ _ _ _ _ _ _ (HP eq_refl)) as [n' [H1 [H2 H3]]].
    eapply tells_one; [apply (ev_if_true w x ee actual st c yes [no] c' n' Hc Hb H1) | reflexivity|].
    destruct H3 as [[HP' H]|[HP' H]]; [left | right]; (split; [exact HP'|]).
    + apply quiet_children. split; [reflexivity|]. repeat constructor; assumption.
    + apply (errors_child _ n'); [right; now left | exact H].
  - destruct (tells_inv _ _ _ _ _ _ _ (HQ eq_refl)) as [n' [H1 [H2 H3]]].
    eapply tells_one; [apply (ev_if_false3 w x ee actual st c yes no [] c' n' Hc Hb H1) | reflexivity|].
    destruct H3 as [[HP' H]|[HP' H]]; [left | right]; (split; [exact HP'|]).
    + apply quiet_children. split; [|repeat constructor; assumption]. apply quiet_children in H as [H _]. unfold own_error in *. exact H.
    + apply (errors_child _ n'); [right; right; now left | exact H].
Qed.
Lemma tells_error st s : tells st [action "error" [value_node (NString s)]] False.
Proof.
  assert (HE : evals st (action "error" [value_node (NString s)]) st (PN (PAction (S_ "error")) (Some (NErr (joined w ee false [NString s]))) [PN (PValue (NString s)) (Some (NVal (NString s))) []])).
  { exact (ev_values_one w x ee actual st "error" (value_node (NString s)) (PN (PValue (NString s)) (Some (NVal (NString s))) []) (NString s) (fun vs => NErr (joined w ee false vs)) (fun _ _ => eq_refl) eq_refl (ev_text w x ee actual st s) eq_refl eq_refl). }
  eapply tells_one; [exact HE | reflexivity|]. right. split; [tauto | discriminate].
Qed.
Lemma parameter_path n : parameter_name n -> at_path (join (known_path w "parameters") n) [inl (S_ "parameters"); inl n].
Proof.
  intros [Hs [H1 [H2 H3]]]. unfold join. destruct (str_eqb_spec n (S_ "*")) as [E|_]; [congruence|].
  destruct (str_eqb_spec n (S_ "[*]")) as [E|_]; [congruence|]. rewrite H3. split; [reflexivity|].
  constructor; [|constructor; [exact Hs | constructor]]. split; [discriminate|]. split; vm_compute; intuition discriminate.
Qed.
Lemma tells_parameter root st0 n v : parameter_name n ->
  let o := at_steps root [inl (S_ "parameters"); inl n] in (forall j, o = Some j -> exists s, j = JStr s) ->
  tells (Some (NVal (NJson root)) :: st0) [parameter_check w (n, v)] (exists s, o = Some (JStr s) /\ lower s = lower v).
Proof.
  intros Hn o Ho. set (st := Some (NVal (NJson root)) :: st0). destruct (parameter_path n Hn) as [Hp Hss].
  unfold parameter_check. set (p := join (known_path w "parameters") n) in *. apply tells_container; [|repeat constructor].
  assert (Hev : evals st (current_node p) st (PN (PResolveCurrent p) (Some (NVal (found o))) [])).
  { apply ev_current. exact (resolve_found p _ root st0 Hp Hss). }
  pose proof (ev_exists w x ee actual st p _ Hev) as He.
  eapply tells_iff; [apply (tells_if_else st _ _ _ _ (exists s, o = Some (JStr s) /\ lower s = lower v) False (match o with Some _ => true | None => false end) He)|].
  - destruct o; reflexivity.
  - destruct o; reflexivity.
  - reflexivity.
  - reflexivity.
  - intro Hb. destruct o as [j|] eqn:Eo; [|discriminate Hb]. destruct (Ho j eq_refl) as [s ->]. cbn [found] in Hev.
    assert (HL : evals st (action "lower-case" [current_node p]) st (PN (PAction (S_ "lower-case")) (Some (NVal (NString (lower s)))) [PN (PResolveCurrent p) (Some (NVal (NJson (JStr s)))) []])).
    { apply (ev_values_one w x ee actual st "lower-case" _ _ (NJson (JStr s)) (fun vs => NVal (one_or_values (map (recase w (to_lower w)) vs)))); [reflexivity | reflexivity | exact Hev | reflexivity | reflexivity]. }
    eapply tells_iff; [apply judges_tells; eapply (judges_equality w x ee actual st) with (v1 := NString (lower v)) (v2 := NString (lower s)); [apply ev_text | exact HL | reflexivity | reflexivity | reflexivity | reflexivity]|].
    cbn [value_matches str_matches]. rewrite str_eqb_eq. split; [intro E; exists s; split; [reflexivity | congruence] | intros [s' [E1 E2]]; injection E1 as <-; congruence].
  - intros _. apply tells_error.
  - destruct o as [j|]; [tauto|]. split; [tauto|]. intros [s [E _]]. discriminate E.
Qed.
Lemma tells_tee st c c' rest r P : evals st c st c' -> pn_result c' = Some r -> is_err r = false -> quiet c' -> tells (Some r :: st) rest P ->
  tells st [action "tee" (c :: rest)] P.
Proof.
  intros Hc Hr He Hq [l' [H1 [H2 H3]]]. eapply tells_one; [apply (ev_tee w x ee actual st c rest c' l' Hc); [unfold pn_value; now rewrite Hr | rewrite Hr; exact H1] | reflexivity|].
  destruct H3 as [[HP H]|[HP H]]; [left | right]; (split; [exact HP|]).
  - apply quiet_children. split; [reflexivity|]. constructor; assumption.
  - apply Exists_exists in H as [n [Hn He']]. apply (errors_child _ n); [right; exact Hn | exact He'].
Qed.
Definition value_text (r : nvalue) : str := dflt (as_string w ee (NVal r)) [].
Lemma tells_parameterised_any p v r e m pa : resolve w x actual p = Ok r -> first_and_rest (strip_parts w (value_text r)) = (m, pa) ->
  structured_ok sp e -> written sp e v -> (forall n u, In (n, u) (params e) -> parameter_name n) ->
  tells [] [parameterised_plan w p v] (media e = m /\ forall n u, param n (params e) = Some u -> exists u', obj_get n (parse_parameters w pa) = Some u' /\ lower u' = lower u).
Proof.
  intros Hr Ea E1 E2 E3. destruct (read_structured e v E1 E2) as [pe [Ee Fe]].
  unfold parameterised_plan. rewrite Ee. cbn [app]. set (root := header_object m (parse_parameters w pa)).
  assert (HP : evals [] (action "header:parse" [resolve_node p]) [] (PN (PAction (S_ "header:parse")) (Some (NVal (NJson root))) [PN (PResolve p) (Some (NVal r)) []])).
  { pose proof (ev_one w x ee actual [] "header:parse" _ _ (fun a => NVal (NJson (parsed_header w (dflt (as_string w ee (pn_value a)) [])))) (fun _ _ => eq_refl) (ev_resolve w x ee actual [] p _ Hr)) as H.
    cbv beta in H. cbn [pn_value pn_result] in H. fold (value_text r) in H. rewrite (parsed_object (value_text r) _ _ Ea) in H. exact H. }
  eapply tells_tee; [exact HP | reflexivity | reflexivity | reflexivity|]. set (st := [Some (NVal (NJson root))]).
  assert (HV : evals st (current_node (known_path w "value")) st (PN (PResolveCurrent (known_path w "value")) (Some (NVal (NJson (JStr m)))) [])).
  { apply ev_current. refine (eq_trans (resolve_found (known_path w "value") [inl (S_ "value")] root [] eq_refl _) _); [|reflexivity].
    constructor; [|constructor]. split; [discriminate|]. split; vm_compute; intuition discriminate. }
  assert (HS : evals st (action "to-string" [current_node (known_path w "value")]) st (PN (PAction (S_ "to-string")) (Some (NVal (NString m))) [PN (PResolveCurrent (known_path w "value")) (Some (NVal (NJson (JStr m)))) []])).
  { apply (ev_values_one w x ee actual st "to-string" _ _ (NJson (JStr m)) (fun vs => NVal (one_or_values (map (stringify w ee) vs)))); [reflexivity | reflexivity | exact HV | reflexivity | reflexivity]. }
  assert (Hpar : forall n, at_steps root [inl (S_ "parameters"); inl n] = option_map JStr (obj_get n (parse_parameters w pa))).
  { intro n. unfold root. apply object_parameters. apply parameters_nodup. }
  eapply tells_iff; [apply tells_cons|].
  - apply judges_tells. eapply (judges_equality w x ee actual st) with (v1 := NString (media e)) (v2 := NString m); [apply ev_text | exact HS | reflexivity | reflexivity | reflexivity | reflexivity].
  - apply (tells_map w x ee actual st (parameter_check w) (fun kv => exists s, at_steps root [inl (S_ "parameters"); inl (fst kv)] = Some (JStr s) /\ lower s = lower (snd kv))).
    intros [n v'] Hin. refine (tells_parameter root [] n v' _ _).
    + pose proof (obj_get_nodup _ _ _ _ (parameters_nodup w pe) Hin) as G. rewrite Fe in G. destruct (param_in _ _ _ G) as [u' Hu']. exact (E3 n u' Hu').
    + intros j Hj. rewrite Hpar in Hj. destruct (obj_get n (parse_parameters w pa)); [injection Hj as <-; eauto | discriminate Hj].
  - cbn [value_matches str_matches]. rewrite str_eqb_eq. split.
    + intros [H1 H2]. split; [exact H1|]. intros n v' G. rewrite <- Fe in G. apply obj_get_in in G. destruct (H2 _ G) as [s [G1 G2]]. cbn [fst snd] in *.
      rewrite Hpar in G1. destruct (obj_get n (parse_parameters w pa)) as [s'|]; [|discriminate G1]. injection G1 as ->. eauto.
    + intros [H1 H2]. split; [exact H1|]. intros [n v'] Hin. cbn [fst snd]. pose proof (obj_get_nodup _ _ _ _ (parameters_nodup w pe) Hin) as G. rewrite Fe in G.
      destruct (H2 n v' G) as [s [G1 G2]]. exists s. rewrite Hpar, G1. split; [reflexivity | exact G2].
Qed.
Lemma tells_parameterised p v u e a : resolve w x actual p = Ok (NString u) ->
  structured_ok sp e -> written sp e v -> (forall n u, In (n, u) (params e) -> parameter_name n) -> structured_ok sp a -> written sp a u ->
  tells [] [parameterised_plan w p v] (structured_accepts lower e a).
Proof.
  intros Hr E1 E2 E3 A1 A2. destruct (read_structured a u A1 A2) as [pa [Ea Fa]].
  eapply tells_iff; [exact (tells_parameterised_any p v (NString u) e (media a) pa Hr Ea E1 E2 E3)|].
  unfold structured_accepts. split; (intros [H1 H2]; split; [exact H1|]; intros n v' G; destruct (H2 n v' G) as [s [G1 G2]]; exists s; split; [|exact G2]).
  - now rewrite <- Fa.
  - now rewrite Fa.
Qed.

(** ** The items *)
Lemma structured_in k : str_in (lower k) PARAMETERISED_HEADERS = true <-> structured_name lower k.
Proof.
  unfold structured_name, PARAMETERISED_HEADERS, str_in. cbn [existsb]. rewrite orb_false_r, orb_true_iff, !str_eqb_eq. reflexivity.
Qed.
Lemma quiet_parameterised p v : quiet (parameterised_plan w p v).
Proof.
  unfold parameterised_plan. destruct (first_and_rest (strip_parts w v)) as [hv ps]. apply quiet_children. split; [reflexivity|]. cbn [action pn_children app].
  constructor; [reflexivity|]. constructor; [reflexivity|]. induction (parse_parameters w ps) as [|[n u] l IH]; [constructor|]. constructor; [reflexivity | exact IH].
Qed.
Lemma quiet_indexed p : forall vs i, Forall quiet (indexed_plans w p i vs).
Proof.
  induction vs as [|v vs IH]; intro i; constructor; [|apply IH]. apply quiet_children. split; [reflexivity|]. constructor; [apply quiet_parameterised | constructor].
Qed.
Lemma resolve_header_absent k i : k <> S_ "*" -> k <> S_ "[*]" ->
  obj_get (lower (looked_up (S_ "headers") k)) (lower_headers w (req_headers actual)) = None ->
  resolve w x actual (join_index (join (known_path w "$.headers") k) i) = Ok NNull.
Proof.
  intros Hk Hk2 Hg. destruct (joined_tokens (known_path w "$.headers") (S_ "headers") k eq_refl Hk) as [t [Ht [Hs [Hl Hi]]]].
  assert (E : join_index (join (known_path w "$.headers") k) i = push_index (join (known_path w "$.headers") k) i).
  { unfold join_index, path_last. rewrite Ht. cbn [rev app]. destruct t; try reflexivity; [congruence|]. destruct (Hk2 (proj1 Hi eq_refl)). }
  rewrite E. unfold push_index, push. unfold resolve, first_field, last_field, is_wildcard, path_last. cbn [path_tokens]. rewrite Ht. cbn [app].
  replace (first_field_of (rev [TRoot; TField (S_ "headers"); t; TIndex i])) with (Some (looked_up (S_ "headers") k)) by (symmetry; exact Hl).
  replace (first_field_of [TRoot; TField (S_ "headers"); t; TIndex i]) with (Some (S_ "headers")) by reflexivity.
  replace (str_eqb (S_ "headers") (S_ "method")) with false by reflexivity.
  replace (str_eqb (S_ "headers") (S_ "path")) with false by reflexivity.
  replace (str_eqb (S_ "headers") (S_ "query")) with false by reflexivity. rewrite str_eqb_refl.
  cbn [length rev app Nat.eqb orb andb dflt]. rewrite Hg. reflexivity.
Qed.
(** A condition that matters only when the header is there. *)
Definition decides (n : pnode) (C : Prop) (o : option (list str)) (P : list str -> Prop) : Prop :=
  exists Q, tells [] [n] Q /\ ((o = None -> ~ C) -> (Q <-> forall us, o = Some us -> P us)).
Lemma ev_if_only st n n' : evals st n st n' -> exists r, evals st (action "if" [n]) st (PN (PAction (S_ "if")) (Some r) [n']) /\ (r = pn_value n' \/ r = NVal (NBool false)).
Proof.
  intros [N0 H]. exists (if is_truthy (pn_value n') then pn_value n' else NVal (NBool false)). split; [|destruct (is_truthy (pn_value n')); auto].
  apply ev_node. exists N0. intros f Hf.
  change (execute_if (walk w x ee actual f) (PAction (S_ "if")) st [n] = Runs st (PN (PAction (S_ "if")) (Some (if is_truthy (pn_value n') then pn_value n' else NVal (NBool false))) [n'])).
  unfold execute_if. rewrite H by assumption. cbn [catch_]. destruct (is_truthy (pn_value n')); reflexivity.
Qed.
Definition header_acc (c : context) : str -> list str -> list str -> Prop :=
  accepts_with (text_sat w) list_sat (selected_rules c) (header_value_accepts lower sp).
Lemma decides_ruled_item c k vs rs : selected_rules c k = Some rs -> (forall r, In r rs -> usable r) -> k <> S_ "*" ->
  let o := obj_get (lower (looked_up (S_ "headers") k)) (lower_headers w (req_headers actual)) in
  tells [] [header_item w c (k, vs)] (forall us, o = Some us -> header_acc c k vs us).
Proof.
  intros Hs Hu Hk o. pose proof (resolve_header k Hk) as Hr. fold o in Hr. unfold header_item.
  assert (Ed : ctx_matcher_is_defined c (join path_root k) = true) by (unfold selected_rules in Hs; destruct (ctx_matcher_is_defined c (join path_root k)); [reflexivity | discriminate Hs]).
  assert (Es : rs = rl_rules (ctx_select_best c (join path_root k))) by (unfold selected_rules in Hs; rewrite Ed in Hs; congruence). subst rs.
  rewrite Ed. apply tells_container; [|repeat constructor]. apply (tells_iff w x ee actual [] _ (True /\ (found_values o <> NNull -> forall us, o = Some us -> header_acc c k vs us))).
  - apply tells_cons; [apply tells_annotation|]. apply (tells_presence w x ee actual [] _ (found_values o)); [exact Hr | | now left|].
    + constructor; [|constructor]. apply quiet_rule_node; [destruct vs as [|v [|v' vs]]; reflexivity | reflexivity].
    + intro Hv. apply found_some in Hv as [us E]. rewrite E in *. cbn [found_values] in Hr.
      eapply tells_iff; [apply (tells_selected w x ee actual c k vs us _ _ Hs Hu Hr (header_value_accepts lower sp))|].
      split; [intros H u Eu; injection Eu as <-; exact H | intro H; exact (H us eq_refl)].
  - split; [|tauto]. intros [_ H] us E. apply H; [|exact E]. apply found_some. eauto.
Qed.
Lemma decides_header_item c k vs : ctx_matcher_is_defined c (join path_root k) = false -> k <> S_ "*" -> k <> S_ "[*]" ->
  let o := obj_get (lower (looked_up (S_ "headers") k)) (lower_headers w (req_headers actual)) in
  (structured_name lower k -> Forall (structured_expected sp) vs /\ forall us, o = Some us -> Forall (structured_readable sp) us /\ us <> [] /\ (length vs = 1%nat -> length us = 1%nat)) ->
  decides (header_item w c (k, vs)) (structured_name lower k) o (header_value_accepts lower sp k vs).
Proof.
  intros Hc Hk Hk2 o Hfit. unfold header_item. rewrite Hc. pose proof (resolve_header k Hk) as Hr. fold o in Hr.
  set (p := join (known_path w "$.headers") k) in *.
  assert (Hwrap : forall body Q, tells [] [presence p body] Q -> tells [] [container k [annotation []; presence p body]] Q).
  { intros body Q H. apply tells_container; [|repeat constructor]. eapply tells_iff; [apply tells_cons; [apply tells_annotation | exact H]|]. tauto. }
  destruct (str_in (lower k) PARAMETERISED_HEADERS) eqn:Es.
  2:{ assert (Hns : ~ structured_name lower k) by (intro H; apply structured_in in H; congruence).
      exists (found_values o <> NNull -> forall us, o = Some us -> values_accept vs us). split.
      - apply Hwrap. apply (tells_presence w x ee actual [] _ (found_values o)); [exact Hr | | now left|].
        + constructor; [|constructor]. destruct vs as [|v [|v' vs]]; reflexivity.
        + intro Hv. apply found_some in Hv as [us E]. rewrite E in Hr |- *. cbn [found_values] in Hr.
          eapply tells_iff; [apply judges_tells; eapply (judges_equality w x ee actual []) with (v1 := one_or_list vs) (v2 := one_or_list us); [apply ev_value; destruct vs as [|v [|v' vs]]; reflexivity | apply ev_resolve; exact Hr | reflexivity | reflexivity | reflexivity | reflexivity]|].
          rewrite one_or_list_matches. split; [intros H u Eu; injection Eu as <-; exact H | intro H; exact (H us eq_refl)].
      - intros _. unfold header_value_accepts. split.
        + intros H us E. split; [intro; contradiction|]. intros _. apply H; [apply found_some; eauto | exact E].
        + intros H _ us E. destruct (H us E) as [_ H']. now apply H'. }
  apply structured_in in Es. destruct (Hfit Es) as [Fe Fa]. clear Hfit.
  assert (Hacc : forall v vs' u us' e a, vs = v :: vs' -> structured_ok sp e -> written sp e v -> structured_ok sp a -> written sp a u ->
     (structured_accepts lower e a <-> header_value_accepts lower sp k vs (u :: us'))).
  { intros v vs' u us' e a Ev E1 E2 A1 A2. unfold header_value_accepts. split.
    - intros [M H]. split; [|intro; contradiction]. intros _ v0 vs0 u0 us0 Ev0 Eu0 e0 a0 W1 W2 O1 O2. rewrite Ev in Ev0. injection Ev0 as <- <-. injection Eu0 as <- <-.
      destruct (structured_unique e e0 v E1 E2 O1 W1) as [Me Pe]. destruct (structured_unique a a0 u A1 A2 O2 W2) as [Ma Pa].
      split; [congruence|]. intros n t Ht. rewrite <- Pe in Ht. destruct (H n t Ht) as [t' [T1 T2]]. exists t'. now rewrite <- Pa.
    - intros [H _]. exact (H Es v vs' u us' Ev eq_refl e a E2 A2 E1 A1). }
  destruct vs as [|v [|v' vs]].
  - (* no expected value *)
    exists True. split.
    + apply Hwrap. cbn [indexed_plans]. pose proof (ev_present w x ee actual [] p _ Hr) as He. unfold presence.
      destruct (ev_if_only _ _ _ He) as [r [Hi Hq]]. eapply tells_one; [exact Hi | reflexivity|]. left. split; [exact I|].
      apply quiet_children. cbn [pn_children]. split.
      * destruct Hq as [->| ->]; [destruct (found_values o); reflexivity | reflexivity].
      * constructor; [destruct (found_values o); reflexivity | constructor].
    + intros _. split; [|tauto]. intros _ us _. split; [|intro; contradiction]. intros _ v0 vs0 u0 us0 E. discriminate E.
  - (* one expected value *)
    apply Forall_inv in Fe. destruct Fe as [e [E1 [E2 E3]]].
    exists (found_values o <> NNull -> forall us, o = Some us -> header_value_accepts lower sp k [v] us). split.
    + apply Hwrap. apply (tells_presence w x ee actual [] _ (found_values o)); [exact Hr | | now left|].
      * constructor; [apply quiet_parameterised | constructor].
      * intro Hv. apply found_some in Hv as [us E]. destruct (Fa us E) as [Fr [_ Hlen]]. specialize (Hlen eq_refl).
        destruct us as [|u [|u' us]]; try discriminate Hlen. apply Forall_inv in Fr. destruct Fr as [a [A1 A2]].
        rewrite E in Hr |- *. cbn [found_values one_or_list] in Hr.
        eapply tells_iff; [exact (tells_parameterised p v u e a Hr E1 E2 E3 A1 A2)|]. rewrite (Hacc v [] u [] e a eq_refl E1 E2 A1 A2).
        split; [intros H us' Eu; injection Eu as <-; exact H | intro H; exact (H _ eq_refl)].
    + intros _. split; [intros H us E; apply H; [apply found_some; eauto | exact E] | intros H _; exact H].
  - (* several *)
    pose proof (Forall_inv Fe) as [e [E1 [E2 E3]]]. pose proof (Forall_inv (Forall_inv_tail Fe)) as [e' [E1' [E2' E3']]].
    cbn [indexed_plans]. destruct o as [us|] eqn:Eo.
    + destruct (Fa us eq_refl) as [Fr [Hne _]]. destruct us as [|u us]; [congruence|]. apply Forall_inv in Fr. destruct Fr as [a [A1 A2]].
      exists (header_value_accepts lower sp k (v :: v' :: vs) (u :: us)). split.
      * apply Hwrap. eapply tells_iff; [eapply (tells_presence w x ee actual [] _ _ _ _ (structured_accepts lower e a)); [exact Hr | | right |]|].
        -- change (Forall quiet (indexed_plans w p 0 (v :: v' :: vs))). apply quiet_indexed.
        -- apply found_some. eauto.
        -- intros _. apply tells_container; [|repeat constructor; unfold parameterised_plan; destruct (first_and_rest (strip_parts w v)); reflexivity].
           apply (tells_parameterised (join_index p 0) v u e a); try assumption. apply (resolve_header_first k u us); assumption.
        -- rewrite <- (Hacc v (v' :: vs) u us e a eq_refl E1 E2 A1 A2). split; [intro H; apply H; apply found_some; eauto | tauto].
      * intros _. split; [intros H us0 E; injection E as <-; exact H | intro H; exact (H _ eq_refl)].
    + (* the second plan is executed *)
      destruct (first_and_rest (strip_parts w (value_text NNull))) as [m pa] eqn:En.
      assert (HR : resolve w x actual (join_index p (0 + 1)) = Ok NNull) by (now apply (resolve_header_absent k)).
      pose proof (tells_parameterised_any _ v' NNull e' m pa HR En E1' E2' E3') as HT.
      set (Q := media e' = m /\ forall n u, param n (params e') = Some u -> exists u', obj_get n (parse_parameters w pa) = Some u' /\ lower u' = lower u) in HT.
      exists Q. split; [|intro H; exfalso; exact (H eq_refl Es)]. apply Hwrap. unfold presence. cbn [found_values] in Hr.
      pose proof (ev_present w x ee actual [] p NNull Hr) as He.
      assert (HC : tells [] [container (show_N (0 + 1)) [parameterised_plan w (join_index p (0 + 1)) v']] Q).
      { apply tells_container; [exact HT|]. repeat constructor. unfold parameterised_plan. destruct (first_and_rest (strip_parts w v')). reflexivity. }
      destruct (tells_inv _ _ _ _ _ _ _ HC) as [n' [H1 [H2 H3]]].
      eapply tells_one; [apply (ev_if_false3 w x ee actual [] _ _ _ _ _ n' He); [reflexivity | exact H1] | reflexivity|].
      assert (HF := quiet_indexed p (v :: v' :: vs) 0). cbn [indexed_plans] in HF.
      destruct H3 as [[HP H]|[HP H]]; [left | right]; (split; [exact HP|]).
      * apply quiet_children. split; [apply quiet_children in H as [H _]; exact H|]. constructor; [reflexivity|]. constructor; [now apply Forall_inv in HF|]. constructor; [exact H|].
        now apply Forall_inv_tail, Forall_inv_tail in HF.
      * apply (errors_child _ n'); [right; right; now left | exact H].
Qed.
Lemma decides_map {A} (f : A -> pnode) (C : A -> Prop) (o : A -> option (list str)) (P : A -> list str -> Prop) l :
  (forall a, In a l -> decides (f a) (C a) (o a) (P a)) ->
  exists Q, tells [] (map f l) Q /\ ((forall a, In a l -> o a = None -> ~ C a) -> (Q <-> forall a us, In a l -> o a = Some us -> P a us)).
Proof.
  induction l as [|a l IH]; intro H.
  - exists True. split; [apply tells_nil|]. intros _. split; [intros _ a us [] | exact (fun _ => I)].
  - destruct IH as [Q [H1 H2]]; [intros; apply H; now right|]. destruct (H a (or_introl eq_refl)) as [Q' [H3 H4]].
    exists (Q' /\ Q). split; [exact (tells_cons w x ee actual [] (f a) _ _ _ H3 H1)|]. intro HC.
    rewrite H2 by (intros; apply HC; [now right | assumption]). rewrite H4 by (apply HC; now left). split.
    + intros [G1 G2] b us [<-|Hb]; [apply G1 | now apply G2].
    + intro G. split; [intros us; apply G; now left | intros b us Hb; apply G; now right].
Qed.
Lemma resolve_whole_headers : resolve w x actual (known_path w "$.headers") = Ok (NMmap (lower_headers w (req_headers actual))).
Proof. reflexivity. Qed.
Lemma header_part e c : (forall k rs r, In k (map fst (or_else_nil (req_headers e))) -> selected_rules c k = Some rs -> In r rs -> usable r) ->
  headers_fit_by lower sp (fun k => selected_rules c k = None) (req_headers e) (req_headers actual) ->
  or_else_nil (req_headers e) <> [] ->
  exists n', evals [] (header_plan w e c) [] n' /\ pn_type n' = PContainer (S_ "headers") /\
    (forallb (fun kv => is_nil (snd kv)) (entry_mismatches n') = true <-> headers_accept_by lower (header_acc c) (req_headers e) (req_headers actual)).
Proof.
  intros Hc [Ne [Na Hfit]] Hne. pose proof (ev_resolve w x ee actual [] _ _ resolve_whole_headers) as Hw. set (hs := lower_headers w (req_headers actual)) in *.
  unfold header_plan. destruct (req_headers e) as [[|kv q]|] eqn:Eq; [exfalso; apply Hne; reflexivity | | exfalso; apply Hne; reflexivity]. clear Hne.
  set (es := kv :: q) in *. cbn [or_else_nil] in Ne, Hfit. set (items := by_key es).
  assert (Hp : Permutation items es) by apply by_key_perm.
  assert (Hkeys : Permutation (map fst items) (map fst es)) by (now apply Permutation_map).
  assert (Hin : forall kv, In kv items <-> In kv es) by (intro; split; apply Permutation_in; [exact Hp | now symmetry]).
  set (o := fun kv : str * list str => obj_get (lower (looked_up (S_ "headers") (fst kv))) hs).
  destruct (decides_map (header_item w c) (fun kv => structured_name lower (fst kv) /\ selected_rules c (fst kv) = None) o (fun kv => header_acc c (fst kv) (snd kv)) items) as [Q [[items' [I1 [I2 I3]]] HQ]].
  { intros [k vs] H. apply Hin in H. destruct (Hfit k vs H) as [Hk [Hk2 Hs]].
    destruct (selected_rules c k) as [rs|] eqn:Esel.
    { eexists. split; [refine (decides_ruled_item c k vs rs Esel _ Hk); intros r Hr; apply (Hc k rs r); [apply (in_map fst) in H; exact H | exact Esel | exact Hr]|]. intros _. reflexivity. }
    assert (Ed : ctx_matcher_is_defined c (join path_root k) = false) by (unfold selected_rules in Esel; destruct (ctx_matcher_is_defined c (join path_root k)); [discriminate Esel | reflexivity]).
    assert (Hacc : forall us, header_acc c k vs us <-> header_value_accepts lower sp k vs us) by (intro us; unfold header_acc, accepts_with; rewrite Esel; reflexivity).
    cbn [fst snd].
    assert (HD : decides (header_item w c (k, vs)) (structured_name lower k) (o (k, vs)) (header_value_accepts lower sp k vs)).
    2:{ destruct HD as [Q [G1 G2]]. exists Q. split; [exact G1|]. intro G. rewrite G2 by (intros E Hst; apply (G E); split; [exact Hst | exact Esel]). split; intros G3 us E; apply Hacc; exact (G3 us E). }
    refine (decides_header_item c k vs Ed Hk Hk2 _).
    intro Hst. destruct (Hs Hst eq_refl) as [Hl [Fe Fa]]. split; [exact Fe|]. intros us E. apply lowered in E as [k' [G1 G2]]; [|exact Na]. apply (Fa k' us G1). now rewrite G2, Hl. }
  assert (HV : evals [] (action "lower-case" [value_node (NSlist (map fst items))]) [] (PN (PAction (S_ "lower-case")) (Some (NVal (NSlist (map lower (map fst items))))) [PN (PValue (NSlist (map fst items))) (Some (NVal (NSlist (map fst items)))) []])).
  { apply (ev_values_one w x ee actual [] "lower-case" _ _ (NSlist (map fst items)) (fun vs => NVal (one_or_values (map (recase w (to_lower w)) vs)))); [reflexivity | reflexivity | now apply ev_value | reflexivity | reflexivity]. }
  destruct (tells_entries w x ee actual [] false _ _ _ _ (map lower (map fst items)) hs "The following expected headers were missing: " HV Hw eq_refl eq_refl eq_refl eq_refl) as [c1 [C1 [C2 [C2' C3]]]].
  cbv iota zeta in C1, C3.
  assert (HL : flat_map label_of (map (header_item w c) items) = map fst items).
  { clear. induction items as [|[k vs] items IH]; [reflexivity|]. cbn. now rewrite IH. }
  assert (HC : Forall (fun n => is_container n = true) (map (header_item w c) items)).
  { apply Forall_forall. intros n H. apply in_map_iff in H as [[k vs] [<- _]]. reflexivity. }
  exists (PN (PContainer (S_ "headers")) (Some (truthy (folded (items' ++ [c1]) NOk))) (items' ++ [c1])). split; [|split; [reflexivity|]].
  - apply ev_container.
    + apply evs_app; [exact I1|]. constructor; [exact C1 | constructor].
    + apply Forall_app. split; [|repeat constructor; assumption]. apply (no_splat_same _ _ I2). apply Forall_forall. intros n H. apply in_map_iff in H as [[k vs] [<- _]]. reflexivity.
  - assert (HN : NoDup (flat_map label_of (map (header_item w c) items))) by (rewrite HL; apply (Permutation_NoDup (Permutation_sym Hkeys)); exact Ne).
    rewrite (entries_told w x ee actual _ items' [c1] _ [forall k, In k (map lower (map fst items)) -> In k (map fst hs)] (S_ "headers") (Some (truthy (folded (items' ++ [c1]) NOk))) I1 I2 I3 HN HC (Forall2_cons _ _ (conj C2 C3) (Forall2_nil _))).
    assert (HK : (forall n, In n (map lower (map fst items)) -> In n (map fst hs)) <-> forall k vs, In (k, vs) es -> exists k' us, In (k', us) (or_else_nil (req_headers actual)) /\ lower k' = lower k).
    { split.
      - intros H k vs Hk. apply lowered_keys. fold hs. apply H. rewrite map_map. apply in_map_iff. exists (k, vs). split; [reflexivity | now apply Hin].
      - intros H n Hn. rewrite map_map in Hn. apply in_map_iff in Hn as [[k vs] [<- Hk]]. apply lowered_keys. apply Hin in Hk. exact (H k vs Hk). }
    assert (HF : Forall (fun Q0 : Prop => Q0) [forall n, In n (map lower (map fst items)) -> In n (map fst hs)] <-> forall k vs, In (k, vs) es -> exists k' us, In (k', us) (or_else_nil (req_headers actual)) /\ lower k' = lower k).
    { rewrite <- HK. split; [intro F; exact (Forall_inv F) | intro F; constructor; [exact F | constructor]]. }
    rewrite HF. clear HF HK.
    assert (HD : (forall k vs, In (k, vs) es -> exists k' us, In (k', us) (or_else_nil (req_headers actual)) /\ lower k' = lower k) ->
       (Q <-> forall k vs, In (k, vs) es -> forall k' us, In (k', us) (or_else_nil (req_headers actual)) -> lower k' = lower (looked_up (S_ "headers") k) -> header_acc c k vs us)).
    { intro H. rewrite HQ.
      - split.
        + intros G k vs Hk k' us Hk' El. apply (G (k, vs) us); [now apply Hin|]. unfold o. cbn [fst]. apply lowered; [exact Na|]. eauto.
        + intros G [k vs] us Hk E. apply Hin in Hk. unfold o in E. cbn [fst] in E. apply lowered in E as [k' [G1 G2]]; [|exact Na]. exact (G k vs Hk k' us G1 G2).
      - intros [k vs] Hk E [Hst Hf]. apply Hin in Hk. cbn [fst] in *. destruct (Hfit k vs Hk) as [_ [_ Hs]]. destruct (Hs Hst Hf) as [Hl _].
        destruct (H k vs Hk) as [k' [us [G1 G2]]]. assert (G : obj_get (lower k) hs = Some us) by (apply lowered; [exact Na | eauto]).
        unfold o in E. cbn [fst] in E. rewrite Hl in E. pose proof (eq_trans (eq_sym E) G) as B. discriminate B. }
    unfold headers_accept_by. cbn [or_else_nil]. split.
    + intros [HQ' H] k vs Hk. split; [exact (H k vs Hk)|]. exact (proj1 (HD H) HQ' k vs Hk).
    + intro G. assert (H : forall k vs, In (k, vs) es -> exists k' us, In (k', us) (or_else_nil (req_headers actual)) /\ lower k' = lower k) by (intros k vs Hk; exact (proj1 (G k vs Hk))).
      split; [|exact H]. apply (HD H). intros k vs Hk. exact (proj2 (G k vs Hk)).
Qed.
End HeaderPart.
