(** Plans that decide a proposition, and what the plan of a JSON body without rules accepts. *)
From Coq Require Import Ascii String List Arith NArith ZArith Lia Bool.
From Verif Require Import Base PathExp Json Text TextProofs MatchingRules Matchers JsonCompare Headers Query ContentType Http Base64 Engine EnginePlan EngineProofs SpecEngine EngineJson.
Import ListNotations.
Open Scope N_scope.

Lemma okay_node t r ch : fine r -> Forall quiet ch -> okay (PN t (Some r) ch).
Proof.
  intros Hr Hc. split; [intros r' [= <-]; exact Hr|]. apply quiet_children. split; [|exact Hc].
  destruct Hr as [->|[v [-> _]]]; reflexivity.
Qed.
Lemma bad_error a e ch : bad (PN (PAction a) (Some (NErr e)) ch).
Proof.
  split; [exists (NErr e); split; [reflexivity | right; eauto]|]. left. split; [reflexivity | discriminate].
Qed.
Lemma fine_true : fine truth.
Proof. right. eexists. split; reflexivity. Qed.
Lemma fine_ok : fine NOk.
Proof. now left. Qed.
Lemma okay_quiet n : okay n -> quiet n. Proof. now intros [_ H]. Qed.
Lemma value_quiet v r : quiet (PN (PValue v) (Some (NVal r)) []). Proof. reflexivity. Qed.

Lemma is_nil_missing a b : is_nil (missing_in a b) = true <-> forall k, In k a -> In k b.
Proof.
  unfold missing_in. assert (HD : forall k l, In k (distinct l) <-> In k l).
  { intros k l. induction l as [|c l IH]; [reflexivity|]. cbn. destruct (str_in c l) eqn:E.
    - rewrite IH. split; [now right|]. intros [<-|H]; [|exact H]. unfold str_in in E. apply existsb_exists in E as [y [Hy E]].
      apply str_eqb_eq in E. now subst.
    - cbn. now rewrite IH. }
  split.
  - intros H k Hk. destruct (str_in k b) eqn:E.
    + unfold str_in in E. apply existsb_exists in E as [y [Hy E]]. apply str_eqb_eq in E. now subst.
    + assert (In k (filter (fun k => negb (str_in k b)) (distinct a))) by (apply filter_In; rewrite E; split; [now apply HD | reflexivity]).
      destruct (filter _ _); [destruct H0 | discriminate].
  - intro H. destruct (filter _ _) as [|k l] eqn:E; [reflexivity|]. exfalso.
    assert (Hin : In k (k :: l)) by now left. rewrite <- E in Hin. apply filter_In in Hin as [H1 H2]. apply HD, H in H1.
    assert (str_in k b = true) by (unfold str_in; apply existsb_exists; exists k; split; [exact H1 | apply str_eqb_refl]).
    rewrite H0 in H2. discriminate.
Qed.

Section Judged.
Variable w : world.
Variable x : externals.
Variable ee : engine_texts.
Variable actual : request.
Notation evals := (evals w x ee actual).
Notation evs := (evs w x ee actual).

Definition same_type (n n' : pnode) : Prop := pn_type n' = pn_type n.
Lemma no_splat_same l l' : Forall2 same_type l l' -> no_splat l -> no_splat l'.
Proof.
  induction 1 as [|c c' l l' H _ IH]; intro Hs; [constructor|]. constructor; [|apply IH; now apply Forall_inv_tail in Hs].
  apply Forall_inv in Hs. unfold is_splat in *. now rewrite H.
Qed.
(** The nodes run, leaving the stack as it was. *)
Definition ran (st : stack) (l : list pnode) : Prop := exists l', evs st l l' /\ Forall2 same_type l l'.
(** The nodes run; all are okay when [P] holds, and one is bad when it does not. *)
Definition judges (st : stack) (l : list pnode) (P : Prop) : Prop :=
  exists l', evs st l l' /\ Forall2 same_type l l' /\ ((P /\ Forall okay l') \/ (~ P /\ Exists bad l')).
Lemma judges_ran st l P : judges st l P -> ran st l.
Proof. intros [l' [H1 [H2 _]]]. exists l'. auto. Qed.
Lemma judges_iff st l P Q : judges st l P -> (P <-> Q) -> judges st l Q.
Proof. intros [l' [H1 [H2 H3]]] H. exists l'. split; [exact H1|]. split; [exact H2|]. tauto. Qed.
Lemma judges_nil st : judges st [] True.
Proof. exists []. split; [constructor|]. split; [constructor|]. left. split; [exact I | constructor]. Qed.
Lemma ran_nil st : ran st [].
Proof. exists []. split; constructor. Qed.
Lemma ran_app st l1 l2 : ran st l1 -> ran st l2 -> ran st (l1 ++ l2).
Proof. intros [a [H1 H2]] [b [H3 H4]]. exists (a ++ b). split; [now apply evs_app | now apply Forall2_app]. Qed.
Lemma judges_app st l1 l2 (P Q : Prop) : judges st l1 P -> ran st l2 -> (P -> judges st l2 Q) -> judges st (l1 ++ l2) (P /\ Q).
Proof.
  intros [a [H1 [H2 H3]]] [b [H4 H5]] HQ. destruct H3 as [[HP Ho]|[HP Hb]].
  - destruct (HQ HP) as [b' [H6 [H7 H8]]]. exists (a ++ b'). split; [now apply evs_app|]. split; [now apply Forall2_app|].
    destruct H8 as [[HQ' Ho']|[HQ' Hb']]; [left | right].
    + split; [tauto|]. apply Forall_app. now split.
    + split; [tauto|]. apply Exists_app. now right.
  - exists (a ++ b). split; [now apply evs_app|]. split; [now apply Forall2_app|]. right. split; [tauto|]. apply Exists_app. now left.
Qed.
Lemma judges_cons st n l (P Q : Prop) : judges st [n] P -> ran st l -> (P -> judges st l Q) -> judges st (n :: l) (P /\ Q).
Proof. apply (judges_app st [n] l). Qed.
Lemma judges_one st n n' (P : Prop) : evals st n st n' -> same_type n n' -> (P /\ okay n') \/ (~ P /\ bad n') -> judges st [n] P.
Proof.
  intros H1 H2 H3. exists [n']. split; [constructor; [exact H1 | constructor]|]. split; [constructor; [exact H2 | constructor]|].
  destruct H3 as [[HP H]|[HP H]]; [left | right]; (split; [exact HP|]); now constructor.
Qed.
Lemma ran_one st n n' : evals st n st n' -> same_type n n' -> ran st [n].
Proof. intros H1 H2. exists [n']. split; (constructor; [assumption | constructor]). Qed.
Lemma judges_container st lb l P : judges st l P -> no_splat l -> judges st [container lb l] P.
Proof.
  intros [l' [H1 [H2 H3]]] Hs. eapply judges_one; [apply ev_container; [exact H1 | exact (no_splat_same _ _ H2 Hs)]|reflexivity|].
  destruct H3 as [[HP Ho]|[HP Hb]]; [left | right]; (split; [exact HP|]).
  - apply okay_node.
    + right. exists (NBool true). split; [|reflexivity]. unfold truthy. rewrite fine_truthy; [reflexivity|].
      apply folded_fine; [|apply fine_ok]. intros c r Hc Hr. eapply Forall_forall in Ho; [|exact Hc]. now apply (proj1 Ho).
    + eapply Forall_impl; [|exact Ho]. intros c Hc. now apply okay_quiet.
  - apply Exists_exists in Hb as [c [Hc [[r [Hr Hst]] Hl]]]. split.
    + exists (NVal (NBool false)). split; [|left; reflexivity]. cbn [pn_result]. unfold truthy. f_equal. f_equal. f_equal.
      apply stuck_not. now apply (folded_stuck_in l' c r Hc Hr Hst).
    + right. now apply (loud_up _ c).
Qed.
Lemma ran_container st lb l : ran st l -> no_splat l -> ran st [container lb l].
Proof.
  intros [l' [H1 H2]] Hs. eapply ran_one; [apply ev_container; [exact H1 | exact (no_splat_same _ _ H2 Hs)]|reflexivity].
Qed.

(** Equality of the values of two nodes; any values, and errors. *)
Definition as_arg (n : pnode) : Prop := quiet n /\ is_splat n = false.
Lemma ev_equality_any st a1 a2 b1 b2 : evals st a1 st b1 -> evals st a2 st b2 -> exists r,
  evals st (equality_node a1 a2) st (PN (PAction (S_ "match:equality")) (Some r) [b1; b2; PN (PValue NNull) (Some (NVal NNull)) []]) /\
  (forall e, value_or_error (pn_value b1) = inr e \/ value_or_error (pn_value b2) = inr e -> exists e', r = NErr e').
Proof.
  intros H1 H2.
  destruct (ev_args w x ee actual st 3 1 [a1; a2; value_node NNull] [] [b1; b2; PN (PValue NNull) (Some (NVal NNull)) []]) as [k Hk].
  { repeat constructor; [exact H1 | exact H2 | apply ev_null]. } { reflexivity. } { cbn; lia. }
  cbn [app] in Hk.
  assert (Hgo : forall o, (forall f, (k <= f)%nat -> execute_match w ee (walk w x ee actual f) (S_ "equality") (PAction (S_ "match:equality")) st [a1; a2; value_node NNull] = Runs st (PN (PAction (S_ "match:equality")) (Some o) [b1; b2; PN (PValue NNull) (Some (NVal NNull)) []])) ->
    evals st (equality_node a1 a2) st (PN (PAction (S_ "match:equality")) (Some o) [b1; b2; PN (PValue NNull) (Some (NVal NNull)) []])).
  { intros o Ho. apply ev_node. exists k. intros f Hf. unfold equality_node, action. unfold walk_node.
    rewrite (action_match w x ee actual f _ st None _ (S_ "equality") eq_refl). apply (Ho f Hf). }
  destruct (value_or_error (pn_value b1)) as [v1|e1] eqn:E1.
  2:{ exists (NErr e1). split; [|eauto]. apply Hgo. intros f Hf. unfold execute_match. rewrite Hk by assumption. cbn [catch_]. rewrite E1. reflexivity. }
  destruct (value_or_error (pn_value b2)) as [v2|e2] eqn:E2.
  2:{ exists (NErr e2). split; [|eauto]. apply Hgo. intros f Hf. unfold execute_match. rewrite Hk by assumption. cbn [catch_]. rewrite E1, E2. reflexivity. }
  exists (if value_matches w ee v1 v2 REquality then NVal (NBool true) else NErr (S_ "Expected")).
  split; [|intros e [H|H]; discriminate H]. apply Hgo. intros f Hf. unfold execute_match. rewrite Hk by assumption. cbn [catch_]. rewrite E1, E2.
  cbn [pn_value pn_result value_or_error]. rewrite equality_created. destruct (value_matches w ee v1 v2 REquality); reflexivity.
Qed.
Lemma judges_equality st a1 a2 b1 b2 v1 v2 : evals st a1 st b1 -> evals st a2 st b2 -> value_is b1 v1 -> value_is b2 v2 -> quiet b1 -> quiet b2 ->
  judges st [equality_node a1 a2] (value_matches w ee v1 v2 REquality = true).
Proof.
  intros H1 H2 E1 E2 Q1 Q2. eapply judges_one; [apply (ev_equality w x ee actual st a1 a2 b1 b2 v1 v2); assumption|reflexivity|].
  destruct (value_matches w ee v1 v2 REquality).
  - left. split; [reflexivity|]. apply okay_node; [apply fine_true|]. repeat constructor; assumption.
  - right. split; [discriminate|]. apply bad_error.
Qed.

(** ** The plan of a JSON document *)
Section Json.
Variable c : context.
Hypothesis Hrules : forall p, ctx_matcher_is_defined c p = false.
Hypothesis Hbest : forall p, rl_is_empty (ctx_select_best c p) = true.
Hypothesis Hallow : allow c = false.

Definition reads_back (v : json) : Prop := json_of_bytes x (utf8 (json_show w v)) = Some v.
Definition readable (j : json) : Prop := forall v, leaf_of v j -> reads_back v.

Lemma ev_current_any st p : exists r, evals st (current_node p) st (PN (PResolveCurrent p) (Some r) []).
Proof.
  destruct (resolve_stack st p) as [v|e] eqn:E.
  - eexists. apply ev_current. exact E.
  - exists (NErr e). apply ev_const. intro f. cbn. now rewrite E.
Qed.
Lemma ev_leaf st v : reads_back v ->
  evals st (value_node (NNamespaced (S_ "json") (json_show w v))) st (PN (PValue (NNamespaced (S_ "json") (json_show w v))) (Some (NVal (NJson v))) []).
Proof. intro H. apply ev_value. cbn [read_value]. rewrite str_eqb_refl. unfold reads_back in H. now rewrite H. Qed.
Lemma ran_equality st v p : reads_back v -> ran st [json_equality w v p].
Proof.
  intro H. destruct (ev_current_any st p) as [r Hr]. destruct (ev_equality_any st _ _ _ _ (ev_leaf st v H) Hr) as [r' [H' _]].
  eapply ran_one; [exact H' | reflexivity].
Qed.
(** Actions on values only. *)
Lemma ran_args st (a : string) n ch ch' f0 :
  (forall f ch, execute_action w x ee (walk w x ee actual f) f (S_ a) st None ch = with_args (walk w x ee actual f) n (PAction (S_ a)) st ch f0) ->
  length ch = n -> evs st ch ch' -> ran st [action a ch].
Proof. intros H1 H2 H3. eapply ran_one; [eapply ev_args_action; eassumption | reflexivity]. Qed.
Lemma ev_exists st p r : evals st (current_node p) st (PN (PResolveCurrent p) (Some r) []) ->
  evals st (action "check:exists" [current_node p]) st (PN (PAction (S_ "check:exists")) (Some (exists_value r)) [PN (PResolveCurrent p) (Some r) []]).
Proof.
  intro H. exact (ev_one w x ee actual st "check:exists" _ _ (fun a => exists_value (pn_value a)) (fun _ _ => eq_refl) H).
Qed.
Lemma ran_item st v p : reads_back v -> ran st [item_check w c v p].
Proof.
  intro H. unfold item_check. rewrite Hrules. destruct (ev_current_any st p) as [r Hr]. pose proof (ev_exists st p r Hr) as He.
  destruct (ran_equality st v p H) as [l [Hl Ht]]. inversion Hl as [|? n' ? ? Hn Hnil]; subst. inversion Hnil; subst.
  destruct (is_truthy (exists_value r)) eqn:E.
  - eapply ran_one; [apply (ev_if_true w x ee actual st _ (json_equality w v p) [] _ n' He); [exact E | exact Hn] | reflexivity].
  - eapply ran_one; [apply (ev_if_false2 w x ee actual st st _ (json_equality w v p) _ He); exact E | reflexivity].
Qed.
Lemma ran_items st p l : (forall v, In v l -> leaf_value v -> reads_back v) -> forall i, ran st (items_plan w c p i l).
Proof.
  intro H. induction l as [|v l IH]; intro i; [apply ran_nil|]. cbn [items_plan]. apply ran_app; [|apply IH; intros; apply H; [now right | assumption]].
  destruct (is_structure v) eqn:E; [apply ran_nil|]. apply ran_container.
  - apply ran_item. apply H; [now left|]. destruct v; try exact I; discriminate E.
  - repeat constructor.
Qed.
Lemma ev_only st ks p r : evals st (current_node p) st (PN (PResolveCurrent p) (Some r) []) ->
  let keys := entries_of w (value_or_null r) in
  evals st (action "expect:only-entries" [value_node (NSlist ks); current_node p]) st
    (PN (PAction (S_ "expect:only-entries"))
       (Some (match keys with
              | Some keys => if is_nil (missing_in keys ks) then NOk else NErr (S_ "The following entries")
              | None => NErr (S_ "can't be used with this node")
              end))
       [PN (PValue (NSlist ks)) (Some (NVal (NSlist ks))) []; PN (PResolveCurrent p) (Some r) []]).
Proof.
  intros Hr keys. destruct (ev_args w x ee actual st 2 1 [value_node (NSlist ks); current_node p] [] [PN (PValue (NSlist ks)) (Some (NVal (NSlist ks))) []; PN (PResolveCurrent p) (Some r) []]) as [k Hk].
  { repeat constructor; [now apply ev_value | exact Hr]. } { reflexivity. } { cbn; lia. }
  cbn [app] in Hk. apply ev_node. exists k. intros f Hf.
  change (check_entries w ee (walk w x ee actual f) true (PAction (S_ "expect:only-entries")) st [value_node (NSlist ks); current_node p] = Runs st (PN (PAction (S_ "expect:only-entries"))
       (Some (match keys with
              | Some keys => if is_nil (missing_in keys ks) then NOk else NErr (S_ "The following entries")
              | None => NErr (S_ "can't be used with this node")
              end))
       [PN (PValue (NSlist ks)) (Some (NVal (NSlist ks))) []; PN (PResolveCurrent p) (Some r) []])).
  unfold check_entries. rewrite Hk by assumption. cbn [catch_]. subst keys.
  change (dflt (v_slist (value_or_null (pn_value (PN (PValue (NSlist ks)) (Some (NVal (NSlist ks))) [])))) []) with ks.
  change (pn_value (PN (PResolveCurrent p) (Some r) [])) with r.
  destruct (entries_of w (value_or_null r)) as [keys|]; [|reflexivity]. destruct (is_nil (missing_in keys ks)); reflexivity.
Qed.

Lemma json_no_splat : forall j p, no_splat (json_plan w c j p).
Proof.
  intros j p. destruct j as [| | | |l|m]; cbn [json_plan]; rewrite ?Hrules; try (repeat constructor).
  - destruct l as [|v l]; [repeat constructor|]. constructor; [reflexivity|]. generalize (v :: l) as l0, 0.
    induction l0 as [|u l0 IH]; intro i; [constructor|]. cbn [items_plan]. apply Forall_app. split; [|apply IH]. destruct (is_structure u); repeat constructor.
  - rewrite Hbest. cbn [negb andb]. apply Forall_app. split; [destruct m; [repeat constructor|]; rewrite Hallow; repeat constructor|].
    apply Forall_forall. intros n Hn. apply in_map_iff in Hn as [kv [<- _]]. reflexivity.
Qed.
Lemma readable_leaf v : leaf_value v -> readable v -> reads_back v.
Proof. intros H R. apply R. now constructor. Qed.
Lemma readable_item l v : readable (JArr l) -> In v l -> readable v.
Proof. intros R H u Hu. apply R. now apply (lo_array u v). Qed.
Lemma readable_entry m k v : readable (JObj m) -> In (k, v) m -> readable v.
Proof. intros R H u Hu. apply R. now apply (lo_object u k v). Qed.

Lemma ev_text2 st (s : string) : evals st (text_node s) st (PN (PValue (NString (S_ s))) (Some (NVal (NString (S_ s)))) []).
Proof. apply ev_text. Qed.
Lemma ran_json st : forall j p, readable j -> ran st (json_plan w c j p).
Proof.
  induction j using json_ind'; intros p R; cbn [json_plan]; rewrite ?Hrules; try (apply ran_equality, readable_leaf; [exact I | exact R]).
  - destruct (ev_current_any st p) as [r Hr]. destruct l as [|v l].
    + eapply (ran_args st "json:expect:empty" 2); [reflexivity | reflexivity | repeat constructor; [apply ev_text2 | exact Hr]].
    + change (?a :: items_plan w c p 0 (v :: l)) with ([a] ++ items_plan w c p 0 (v :: l)). apply ran_app.
      * eapply (ran_args st "json:match:length" 3); [reflexivity | reflexivity | repeat constructor; [apply ev_text2 | now apply ev_value | exact Hr]].
      * apply ran_items. intros u Hu Hl. apply readable_leaf; [exact Hl|]. now apply (readable_item (v :: l)).
  - destruct (ev_current_any st p) as [r Hr]. rewrite Hbest. cbn [negb andb]. apply ran_app.
    + destruct m as [|kv m].
      * eapply (ran_args st "json:expect:empty" 2); [reflexivity | reflexivity | repeat constructor; [apply ev_text2 | exact Hr]].
      * rewrite Hallow. cbn [negb]. change ([?a; ?b]) with ([a] ++ [b]). apply ran_app.
        -- eapply (ran_args st "json:expect:entries" 3); [reflexivity | reflexivity | repeat constructor; [apply ev_text2 | now apply ev_value | exact Hr]].
        -- eapply ran_one; [apply ev_only; exact Hr | reflexivity].
    + assert (Hm : forall kv, In kv m -> In kv m) by auto. revert Hm. generalize m at 1 3. intro m0. induction m0 as [|kv m0 IHm]; intro Hm; [apply ran_nil|].
      cbn [map]. change (?a :: map ?f m0) with ([a] ++ map f m0). apply ran_app; [|apply IHm; intros; apply Hm; now right].
      assert (Hin : In kv m) by (apply Hm; now left). apply ran_container; [|apply json_no_splat].
      rewrite Forall_forall in H. apply (H kv Hin). destruct kv as [k v]. now apply (readable_entry m k v).
Qed.
Lemma judges_args st (a : string) n ch ch' f0 (P : Prop) :
  (forall f ch, execute_action w x ee (walk w x ee actual f) f (S_ a) st None ch = with_args (walk w x ee actual f) n (PAction (S_ a)) st ch f0) ->
  length ch = n -> evs st ch ch' -> (P -> Forall quiet ch') ->
  ((P /\ f0 (map pn_value ch') = truth) \/ (~ P /\ exists e, f0 (map pn_value ch') = NErr e)) -> judges st [action a ch] P.
Proof.
  intros H1 H2 H3 Hq H4. eapply judges_one; [eapply ev_args_action; eassumption | reflexivity|].
  destruct H4 as [[HP ->]|[HP [e ->]]]; [left | right]; (split; [exact HP|]); [apply okay_node; [apply fine_true | exact (Hq HP)] | apply bad_error].
Qed.

Section Found.
Variable root : json.
Variable st0 : stack.
Hypothesis Hwf : json_wf root.
Notation st := (Some (NVal (NJson root)) :: st0).
Definition at_path (p : docpath) (ss : list (str + N)) : Prop := path_tokens p = TRoot :: map step_token ss /\ Forall step_simple ss.
Lemma ev_found p ss u : at_path p ss -> at_steps root ss = Some u ->
  evals st (current_node p) st (PN (PResolveCurrent p) (Some (NVal (NJson u))) []).
Proof. intros [H1 H2] Hu. apply ev_current. rewrite (resolve_found p ss root st0 H1 H2), Hu. reflexivity. Qed.
Lemma at_path_push p ss s : at_path p ss -> step_simple s -> at_path (push p (step_token s)) (ss ++ [s]).
Proof.
  intros [H1 H2] Hs. split; [|apply Forall_app; split; [exact H2 | now repeat constructor]].
  unfold push. cbn [path_tokens]. rewrite H1, map_app. reflexivity.
Qed.
Lemma at_path_index p ss i : at_path p ss -> i < two64 -> at_path (join_index p i) (ss ++ [inr i]).
Proof.
  intros H Hi. assert (E : join_index p i = push p (TIndex i)).
  { unfold join_index, path_last. destruct H as [-> _]. cbn [rev]. destruct (rev (map step_token ss)) as [|t l] eqn:E; [reflexivity|].
    assert (Hin : In t (map step_token ss)) by (apply in_rev; rewrite E; now left).
    apply in_map_iff in Hin as [s [<- _]]. cbn [app]. destruct s; reflexivity. }
  rewrite E. exact (at_path_push p ss (inr i) H Hi).
Qed.
Lemma at_steps_wf : forall ss j u, json_wf j -> at_steps j ss = Some u -> json_wf u.
Proof.
  induction ss as [|s ss IH]; intros j u W H; [now injection H as <-|]. cbn [at_steps] in H.
  destruct (step_in j s) as [v|] eqn:E; [|discriminate H]. apply (IH v); [|exact H].
  destruct s as [k|i]; destruct j as [| | | |l|m]; cbn [step_in] in E; try discriminate E.
  - apply obj_get_in in E. apply json_wf_obj in W as [_ W]. rewrite Forall_forall in W. exact (W _ E).
  - apply nth_error_In in E. apply json_wf_arr in W. rewrite Forall_forall in W. now apply W.
Qed.

Lemma judges_leaf v p ss u : leaf_value v -> reads_back v -> at_path p ss -> at_steps root ss = Some u ->
  judges st [json_equality w v p] (json_eqb v u = true).
Proof.
  intros Hl Hr Hp Hu. unfold json_equality.
  apply (judges_equality st _ _ _ _ (NJson v) (NJson u) (ev_leaf st v Hr) (ev_found p ss u Hp Hu)); reflexivity.
Qed.
Lemma judges_item v p ss u : leaf_value v -> reads_back v -> at_path p ss -> at_steps root ss = Some u ->
  judges st [item_check w c v p] (json_eqb v u = true).
Proof.
  intros Hl Hr Hp Hu. unfold item_check. rewrite Hrules. pose proof (ev_exists st p _ (ev_found p ss u Hp Hu)) as He.
  destruct (judges_leaf v p ss u Hl Hr Hp Hu) as [l [H1 [H2 H3]]].
  inversion H1 as [|? n' ? ? Hn Hnil]; subst. inversion Hnil; subst. clear H1 Hnil.
  eapply judges_one; [apply (ev_if_true w x ee actual st _ (json_equality w v p) [] _ n' He); [reflexivity | exact Hn] | reflexivity|].
  destruct H3 as [[HP Ho]|[HP Hb]]; [left | right]; (split; [exact HP|]).
  - apply Forall_inv in Ho. apply okay_node; [|repeat constructor; now apply okay_quiet].
    right. eexists. split; [reflexivity|]. cbn [truthy_v]. unfold pn_value. destruct Ho as [Ho _]. destruct (pn_result n') as [r|]; [|reflexivity].
    apply fine_truthy. now apply Ho.
  - apply Exists_cons in Hb as [[[r [E1 E2]] Hb]|Hb]; [|inversion Hb]. split.
    + eexists. split; [reflexivity|]. left. unfold truthy, pn_value. rewrite E1. now rewrite stuck_not.
    + right. apply (loud_up _ n'); [right; now left | exact Hb].
Qed.
Lemma judges_items p ss us : at_path p ss -> at_steps root ss = Some (JArr us) ->
  forall l i, (forall v, In v l -> leaf_value v -> reads_back v) -> (N.to_nat i + length l <= length us)%nat -> i + len l < two64 ->
  judges st (items_plan w c p i l)
    (forall k v u, nth_error l k = Some v -> nth_error us (N.to_nat i + k) = Some u -> leaf_value v -> json_eqb v u = true).
Proof.
  intros Hp Hu. induction l as [|v l IH]; intros i R Hlen Hi.
  - eapply judges_iff; [apply judges_nil|]. split; [|exact (fun _ => I)]. intros _ k v u H. destruct k; discriminate H.
  - cbn [items_plan]. unfold len in Hi. cbn [length] in Hlen, Hi.
    destruct (nth_error us (N.to_nat i)) as [u0|] eqn:E0; [|apply nth_error_None in E0; lia].
    assert (HI : judges st (items_plan w c p (i + 1) l)
      (forall k v u, nth_error l k = Some v -> nth_error us (N.to_nat (i + 1) + k) = Some u -> leaf_value v -> json_eqb v u = true)).
    { apply IH; [intros; apply R; [now right | assumption] | lia | unfold len; lia]. }
    assert (H0 : judges st (if is_structure v then [] else [container (path_expr (join_index p i)) [item_check w c v (join_index p i)]])
      (leaf_value v -> json_eqb v u0 = true)).
    { destruct (is_structure v) eqn:Es.
      - eapply judges_iff; [apply judges_nil|]. split; [|exact (fun _ => I)]. intros _ Hl. destruct v; try discriminate Es; destruct Hl.
      - assert (Hl : leaf_value v) by (destruct v; try exact I; discriminate Es).
        apply judges_container; [|repeat constructor].
        eapply judges_iff; [apply (judges_item v (join_index p i) (ss ++ [inr i]) u0 Hl)|].
        + apply R; [now left | exact Hl].
        + apply at_path_index; [exact Hp | lia].
        + rewrite at_steps_app, Hu. cbn [at_steps step_in]. now rewrite E0.
        + tauto. }
    eapply judges_iff; [apply judges_app; [exact H0 | exact (judges_ran _ _ _ HI) | intros _; exact HI]|]. split.
    + intros [G1 G2] [|k] v' u' Hv Hu' Hl'.
      * cbn in Hv. injection Hv as <-. rewrite Nat.add_0_r, E0 in Hu'. injection Hu' as <-. now apply G1.
      * apply (G2 k v' u' Hv); [|exact Hl']. replace (N.to_nat (i + 1) + k)%nat with (N.to_nat i + S k)%nat by lia. exact Hu'.
    + intro G. split.
      * apply (G O v u0 eq_refl). now rewrite Nat.add_0_r.
      * intros k v' u' Hv Hu' Hl'. apply (G (S k) v' u' Hv); [|exact Hl']. replace (N.to_nat i + S k)%nat with (N.to_nat (i + 1) + k)%nat by lia. exact Hu'.
Qed.

Lemma accepts_array es u : json_accepts (JArr es) u <-> exists us, u = JArr us /\ length us = length es /\
  forall i v u', nth_error es i = Some v -> nth_error us i = Some u' -> leaf_value v -> json_eqb v u' = true.
Proof.
  split.
  - intro H. inversion H as [v u' Hl| |]; subst; [destruct Hl|]. eauto.
  - intros [us [-> [H1 H2]]]. now constructor.
Qed.
Lemma accepts_object m u : json_accepts (JObj m) u <-> exists m', u = JObj m' /\ (forall k, In k (map fst m) <-> In k (map fst m')) /\
  forall k v u', In (k, v) m -> In (k, u') m' -> json_accepts v u'.
Proof.
  split.
  - intro H. inversion H as [v u' Hl| |]; subst; [destruct Hl|]. eauto.
  - intros [us [-> [H1 H2]]]. now constructor.
Qed.
Lemma accepts_leaf v u : leaf_value v -> (json_accepts v u <-> json_eqb v u = true).
Proof. intro Hl. split; [intro H; inversion H; subst; [assumption | destruct Hl | destruct Hl] | now constructor]. Qed.

Lemma judges_json : forall j, simple_names j -> readable j -> forall p ss u, at_path p ss -> at_steps root ss = Some u ->
  judges st (json_plan w c j p) (json_accepts j u).
Proof.
  induction j as [ | | | |l _|m IH] using json_ind'; intros Hn R p ss u Hp Hu; cbn [json_plan]; rewrite ?Hrules;
    try (eapply judges_iff; [apply (judges_leaf _ p ss u); [exact I | apply readable_leaf; [exact I | exact R] | exact Hp | exact Hu]
                            | symmetry; apply accepts_leaf; exact I]).
  - pose proof (ev_found p ss u Hp Hu) as He. destruct l as [|v l].
    + apply (judges_args st "json:expect:empty" 2 _ [PN (PValue (NString (S_ "ARRAY"))) (Some (NVal (NString (S_ "ARRAY")))) []; PN (PResolveCurrent p) (Some (NVal (NJson u))) []] (json_expect_empty w ee));
        [reflexivity | reflexivity | constructor; [apply ev_text2|]; constructor; [exact He | constructor] | intros _; repeat constructor|].
      rewrite accepts_array. destruct u as [| | | |us|um];
        try (right; split; [intros [us0 [E _]]; discriminate E | eexists; reflexivity]).
      destruct us as [|u0 us]; [left | right]; (split; [|try (eexists; reflexivity); reflexivity]).
      * exists []. split; [reflexivity|]. split; [reflexivity|]. intros i v u' H. destruct i; discriminate H.
      * intros [us' [E [H _]]]. injection E as <-. discriminate H.
    + assert (H1 : judges st [action "json:match:length" [text_node "ARRAY"; value_node (NUint (len (v :: l))); current_node p]]
                     (exists us, u = JArr us /\ length us = length (v :: l))).
      { apply (judges_args st "json:match:length" 3 _ [PN (PValue (NString (S_ "ARRAY"))) (Some (NVal (NString (S_ "ARRAY")))) [];
            PN (PValue (NUint (len (v :: l)))) (Some (NVal (NUint (len (v :: l))))) []; PN (PResolveCurrent p) (Some (NVal (NJson u))) []] (json_match_length w ee));
        [reflexivity | reflexivity | constructor; [apply ev_text2|]; constructor; [now apply ev_value|]; constructor; [exact He | constructor] | intros _; repeat constructor|].
        destruct u as [| | | |us|um]; try (right; split; [intros [us0 [E _]]; discriminate E | eexists; reflexivity]).
        assert (E : json_match_length w ee (map pn_value [PN (PValue (NString (S_ "ARRAY"))) (Some (NVal (NString (S_ "ARRAY")))) [];
            PN (PValue (NUint (len (v :: l)))) (Some (NVal (NUint (len (v :: l))))) []; PN (PResolveCurrent p) (Some (NVal (NJson (JArr us)))) []]) =
            if len us =? len (v :: l) then truth else NErr (S_ "Was expecting a length")) by reflexivity.
        rewrite E. destruct (N.eqb_spec (len us) (len (v :: l))) as [El|El]; [left | right]; (split; [|try (eexists; reflexivity); reflexivity]).
        - exists us. split; [reflexivity|]. apply Nat2N.inj. exact El.
        - intros [us' [E' H]]. injection E' as <-. apply El. unfold len. now rewrite H. }
      eapply judges_iff; [apply (judges_cons st _ _ _ (forall us, u = JArr us -> forall k v' u', nth_error (v :: l) k = Some v' -> nth_error us (N.to_nat 0 + k) = Some u' -> leaf_value v' -> json_eqb v' u' = true) H1)|].
      * apply ran_items. intros u' Hu' Hl. apply readable_leaf; [exact Hl|]. now apply (readable_item (v :: l)).
      * intros [us [-> Hlen]]. inversion Hn as [? Hl| ? Hbig|]; subst; [destruct Hl|].
        eapply judges_iff; [apply (judges_items p ss us Hp Hu)|].
        -- intros u' Hu' Hl. apply readable_leaf; [exact Hl|]. now apply (readable_item (v :: l)).
        -- rewrite Hlen. cbn. lia.
        -- unfold len. rewrite N.add_0_l. exact Hbig.
        -- split; [intros H us' E; injection E as <-; exact H | intro H; exact (H us eq_refl)].
      * rewrite accepts_array. split.
        -- intros [[us [E Hlen]] H]. exists us. split; [exact E|]. split; [exact Hlen|]. exact (H us E).
        -- intros [us [E [Hlen H]]]. split; [eauto|]. intros us' E'. rewrite E in E'. injection E' as <-. exact H.
  - pose proof (ev_found p ss u Hp Hu) as He. pose proof (at_steps_wf ss root u Hwf Hu) as Wu. rewrite Hbest. cbn [negb andb].
    assert (HC : (exists m', u = JObj m' /\ (forall k, In k (map fst m) <-> In k (map fst m'))) ->
      judges st (map (fun kv => container (path_expr (push_field p (fst kv))) (json_plan w c (snd kv) (push_field p (fst kv)))) m)
        (forall m', u = JObj m' -> forall k v u', In (k, v) m -> In (k, u') m' -> json_accepts v u')).
    { intros [m' [-> Hk]]. assert (Nm : NoDup (keys m')) by (apply json_wf_obj in Wu as [Wu _]; now apply sorted_nodup).
      assert (G : forall m0, (forall kv, In kv m0 -> In kv m) ->
        judges st (map (fun kv => container (path_expr (push_field p (fst kv))) (json_plan w c (snd kv) (push_field p (fst kv)))) m0)
          (forall k v u', In (k, v) m0 -> In (k, u') m' -> json_accepts v u')).
      { induction m0 as [|[k v] m0 IHm]; intro Hsub.
        - eapply judges_iff; [apply judges_nil|]. split; [intros _ ? ? ? [] | exact (fun _ => I)].
        - assert (Hin : In (k, v) m) by (apply Hsub; now left).
          assert (Hkm : In k (map fst m')) by (apply Hk; apply in_map_iff; exists (k, v); auto).
          apply in_map_iff in Hkm as [[k0 u0] [E0 Hu0]]. cbn [fst] in E0. subst k0.
          assert (Hg : obj_get k m' = Some u0) by (apply obj_get_nodup; assumption).
          inversion Hn as [? Hl| |? Hent]; subst; [destruct Hl|]. destruct (Hent k v Hin) as [Hk1 Hk2].
          assert (HI := IHm (fun kv H => Hsub kv (or_intror H))).
          eapply judges_iff; [cbn [map fst snd]; eapply (judges_cons st _ _ (json_accepts v u0))|].
          + apply judges_container; [|apply json_no_splat]. rewrite Forall_forall in IH.
            apply (IH (k, v) Hin Hk2 (readable_entry m k v R Hin) (push_field p k) (ss ++ [inl k]) u0).
            * exact (at_path_push p ss (inl k) Hp Hk1).
            * rewrite at_steps_app, Hu. cbn [at_steps step_in]. now rewrite Hg.
          + exact (judges_ran _ _ _ HI).
          + intros _. exact HI.
          + split.
            * intros [G1 G2] k' v' u' [E|H1] H2; [|now apply (G2 k' v' u')]. injection E as <- <-.
              pose proof (obj_get_nodup _ _ _ _ Nm H2) as G3. rewrite Hg in G3. injection G3 as <-. exact G1.
            * intro G. split; [apply (G k v u0); [now left | exact Hu0]|]. intros k' v' u' H1 H2. apply (G k' v' u'); [now right | exact H2]. }
      eapply judges_iff; [apply (G m); auto|]. split; [intros H m1 E; injection E as <-; exact H | intro H; exact (H m' eq_refl)]. }
    assert (HR : ran st (map (fun kv => container (path_expr (push_field p (fst kv))) (json_plan w c (snd kv) (push_field p (fst kv)))) m)).
    { assert (Hm : forall kv, In kv m -> In kv m) by auto. revert Hm. generalize m at 1 3. intro m0. induction m0 as [|kv m0 IHm]; intro Hm; [apply ran_nil|].
      cbn [map]. change (?a :: map ?f m0) with ([a] ++ map f m0). apply ran_app; [|apply IHm; intros; apply Hm; now right].
      assert (Hin : In kv m) by (apply Hm; now left). apply ran_container; [|apply json_no_splat].
      apply ran_json. destruct kv as [k v]. now apply (readable_entry m k v). }
    assert (HP : judges st
      match m with
      | [] => [action "json:expect:empty" [text_node "OBJECT"; current_node p]]
      | _ => [action "json:expect:entries" [text_node "OBJECT"; value_node (NSlist (map fst m)); current_node p];
              if negb (allow c) then action "expect:only-entries" [value_node (NSlist (map fst m)); current_node p]
              else action "json:expect:not-empty" [text_node "OBJECT"; current_node p]]
      end (exists m', u = JObj m' /\ (forall k, In k (map fst m) <-> In k (map fst m')))).
    { clear IH HC HR Hn R. destruct m as [|kv m].
      - apply (judges_args st "json:expect:empty" 2 _ [PN (PValue (NString (S_ "OBJECT"))) (Some (NVal (NString (S_ "OBJECT")))) []; PN (PResolveCurrent p) (Some (NVal (NJson u))) []] (json_expect_empty w ee));
        [reflexivity | reflexivity | constructor; [apply ev_text2|]; constructor; [exact He | constructor] | intros _; repeat constructor|].
        destruct u as [| | | |us|um]; try (right; split; [intros [us0 [E _]]; discriminate E | eexists; reflexivity]).
        destruct um as [|kv um]; [left | right]; (split; [|try (eexists; reflexivity); reflexivity]).
        + exists []. split; reflexivity.
        + intros [m' [E H]]. injection E as <-. destruct (proj2 (H (fst kv)) (or_introl eq_refl)).
      - set (ks := map fst (kv :: m)). rewrite Hallow. cbn [negb].
        assert (H1 : judges st [action "json:expect:entries" [text_node "OBJECT"; value_node (NSlist ks); current_node p]]
                       (exists m', u = JObj m' /\ forall k, In k ks -> In k (map fst m'))).
        { apply (judges_args st "json:expect:entries" 3 _ [PN (PValue (NString (S_ "OBJECT"))) (Some (NVal (NString (S_ "OBJECT")))) [];
            PN (PValue (NSlist ks)) (Some (NVal (NSlist ks))) []; PN (PResolveCurrent p) (Some (NVal (NJson u))) []] (json_expect_entries w ee));
          [reflexivity | reflexivity | constructor; [apply ev_text2|]; constructor; [now apply ev_value|]; constructor; [exact He | constructor] | intros _; repeat constructor|].
          destruct u as [| | | |us|um]; try (right; split; [intros [us0 [E _]]; discriminate E | eexists; reflexivity]).
          assert (E : json_expect_entries w ee (map pn_value [PN (PValue (NString (S_ "OBJECT"))) (Some (NVal (NString (S_ "OBJECT")))) [];
            PN (PValue (NSlist ks)) (Some (NVal (NSlist ks))) []; PN (PResolveCurrent p) (Some (NVal (NJson (JObj um)))) []]) =
            if is_nil (missing_in ks (map fst um)) then truth
                        else NErr (S_ "The following expected entries were missing from the actual Object: ")) by reflexivity.
          rewrite E. pose proof (is_nil_missing ks (map fst um)) as HM. destruct (is_nil (missing_in ks (map fst um))); [left | right]; (split; [|try (eexists; reflexivity); reflexivity]).
          - exists um. split; [reflexivity|]. now apply HM.
          - intros [m' [E' H]]. injection E' as <-. apply HM in H. discriminate H. }
        assert (H2 := ev_only st ks p _ He). cbn [value_or_null] in H2.
        eapply judges_iff; [apply (judges_cons st _ _ _ (forall m', u = JObj m' -> forall k, In k (map fst m') -> In k ks) H1)|].
        + eapply ran_one; [exact H2 | reflexivity].
        + intros [um [-> _]]. eapply judges_one; [exact H2 | reflexivity|]. cbn [entries_of].
          pose proof (is_nil_missing (map fst um) ks) as HM. destruct (is_nil (missing_in (map fst um) ks)); [left | right]; split.
          * intros m' E. injection E as <-. now apply HM.
          * apply okay_node; [apply fine_ok | repeat constructor].
          * intro H. specialize (H um eq_refl). apply HM in H. discriminate H.
          * apply bad_error.
        + split.
          * intros [[m' [E G1]] G2]. exists m'. split; [exact E|]. intro k. split; [apply G1 | apply (G2 m' E)].
          * intros [m' [E G]]. split; [exists m'; split; [exact E | intros k; apply G]|]. intros m1 E1. rewrite E in E1. injection E1 as <-. intros k. apply G. }
    eapply judges_iff; [apply (judges_app st _ _ _ _ HP HR HC)|]. rewrite accepts_object. split.
    + intros [[m' [E H1]] H2]. exists m'. split; [exact E|]. split; [exact H1|]. exact (H2 m' E).
    + intros [m' [E [H1 H2]]]. split; [eauto|]. intros m1 E1. rewrite E in E1. injection E1 as <-. exact H2.
Qed.
End Found.

(** Without a JSON value on the stack nothing is found: the first check fails. *)
Lemma judges_nothing st0 v j p : (forall u, v <> NJson u) -> readable j ->
  judges (Some (NVal v) :: st0) (json_plan w c j p) False.
Proof.
  intros Hv R. set (st := Some (NVal v) :: st0).
  assert (He : evals st (current_node p) st (PN (PResolveCurrent p) (Some (NErr (S_ "Can not resolve"))) [])).
  { apply ev_const. intro f. cbn. unfold resolve_stack. cbn [top]. destruct v; try reflexivity. destruct (Hv j0 eq_refl). }
  assert (HF : forall n l P, judges st [n] P -> ~ P -> ran st l -> judges st (n :: l) False).
  { intros n l P H HP Hl. eapply judges_iff; [apply (judges_cons st n l P True H Hl); tauto | tauto]. }
  assert (HL : forall v, reads_back v -> judges st [json_equality w v p] False).
  { intros v' Hr. destruct (ev_equality_any st _ _ _ _ (ev_leaf st v' Hr) He) as [r [H1 H2]].
    destruct (H2 _ (or_intror eq_refl)) as [e ->]. eapply judges_one; [exact H1 | reflexivity|]. right. split; [tauto | apply bad_error]. }
  pose proof (ran_json st j p R) as HR.
  destruct j as [| | | |l|m]; cbn [json_plan] in *; rewrite ?Hrules in *; try (apply HL, readable_leaf; [exact I | exact R]).
  - destruct l as [|u l].
    + apply (judges_args st "json:expect:empty" 2 _ [PN (PValue (NString (S_ "ARRAY"))) (Some (NVal (NString (S_ "ARRAY")))) []; PN (PResolveCurrent p) (Some (NErr (S_ "Can not resolve"))) []] (json_expect_empty w ee));
        [reflexivity | reflexivity | constructor; [apply ev_text2|]; constructor; [exact He | constructor] | intros [] | right; split; [tauto | eexists; reflexivity]].
    + apply (HF _ _ False); [|tauto|].
      * apply (judges_args st "json:match:length" 3 _ [PN (PValue (NString (S_ "ARRAY"))) (Some (NVal (NString (S_ "ARRAY")))) [];
            PN (PValue (NUint (len (u :: l)))) (Some (NVal (NUint (len (u :: l))))) []; PN (PResolveCurrent p) (Some (NErr (S_ "Can not resolve"))) []] (json_match_length w ee));
        [reflexivity | reflexivity | constructor; [apply ev_text2|]; constructor; [now apply ev_value|]; constructor; [exact He | constructor] | intros [] | right; split; [tauto | eexists; reflexivity]].
      * apply ran_items. intros u' Hu' Hl. apply readable_leaf; [exact Hl|]. now apply (readable_item (u :: l)).
  - rewrite Hbest in *. cbn [negb andb] in *. destruct m as [|kv m].
    + cbn [map app]. apply (judges_args st "json:expect:empty" 2 _ [PN (PValue (NString (S_ "OBJECT"))) (Some (NVal (NString (S_ "OBJECT")))) []; PN (PResolveCurrent p) (Some (NErr (S_ "Can not resolve"))) []] (json_expect_empty w ee));
        [reflexivity | reflexivity | constructor; [apply ev_text2|]; constructor; [exact He | constructor] | intros [] | right; split; [tauto | eexists; reflexivity]].
    + cbn [app] in *. set (ks := map fst (kv :: m)) in *. apply (HF _ _ False); [|tauto|].
      * apply (judges_args st "json:expect:entries" 3 _ [PN (PValue (NString (S_ "OBJECT"))) (Some (NVal (NString (S_ "OBJECT")))) [];
            PN (PValue (NSlist ks)) (Some (NVal (NSlist ks))) []; PN (PResolveCurrent p) (Some (NErr (S_ "Can not resolve"))) []] (json_expect_entries w ee));
          [reflexivity | reflexivity | constructor; [apply ev_text2|]; constructor; [now apply ev_value|]; constructor; [exact He | constructor] | intros [] | right; split; [tauto | eexists; reflexivity]].
      * destruct HR as [l' [H1 H2]]. inversion H1; subst. inversion H2; subst. eexists. split; eassumption.
Qed.
End Json.
End Judged.
