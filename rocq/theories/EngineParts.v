(** What the parts of a request plan without rules report. *)
From Coq Require Import Ascii String List Arith NArith ZArith Lia Bool Permutation.
From Verif Require Import Base PathExp Json Text TextProofs MatchingRules Matchers JsonCompare Headers HeaderProofs2 Query ContentType Http Base64 Engine EnginePlan EngineProofs SpecHeaders SpecEngine EngineJson EngineJudge.
Import ListNotations.
Open Scope N_scope.

Lemma quiet_errors n : quiet n <-> node_errors n = []. Proof. reflexivity. Qed.
Lemma errors_child n ch : In ch (pn_children n) -> node_errors ch <> [] -> node_errors n <> [].
Proof.
  intros Hin He E. apply quiet_errors, quiet_children in E as [_ E]. rewrite Forall_forall in E. exact (He (E ch Hin)).
Qed.
Lemma quiet_errors_below all n : Forall quiet (pn_children n) -> errors_below all n = [].
Proof.
  intro H. assert (E : errors_below true n = []).
  { destruct n as [t r l]. cbn [pn_children errors_below] in *. induction H as [|k l Hk _ IH]; [reflexivity|]. cbn. unfold quiet, node_errors in Hk. now rewrite Hk. }
  destruct all; [exact E | now apply errors_all_none].
Qed.

(** ** Reading the mismatches of named entries *)
Lemma sm_insert_nils {A} k (v : list A) m : is_nil v = true -> forallb (fun kv => is_nil (snd kv)) m = true ->
  forallb (fun kv => is_nil (snd kv)) (sm_insert k v m) = true.
Proof.
  intro Hv. induction m as [|[k' v'] m IH]; intro H; cbn in *; [now rewrite Hv|]. apply andb_true_iff in H as [H1 H2].
  destruct (str_eqb k k'); cbn; [now rewrite Hv, H2 | now rewrite H1, IH].
Qed.
Lemma not_nils {A} k (v : list A) m : obj_get k m = Some v -> v <> [] -> forallb (fun kv => is_nil (snd kv)) m = false.
Proof.
  intros H Hv. apply obj_get_in in H. destruct (forallb _ m) eqn:E; [|reflexivity]. rewrite forallb_forall in E. specialize (E _ H).
  cbn in E. destruct v; [congruence | discriminate E].
Qed.
Definition label_of (n : pnode) : list str := match pn_type n with PContainer l => [l] | _ => [] end.
Definition entry_step (acc : list (str * list str)) (c : pnode) : list (str * list str) :=
  match pn_type c with
  | PContainer l => sm_insert l (node_errors c) acc
  | _ => match node_errors c with
         | [] => acc
         | es => match obj_get [] acc with
                 | Some es' => sm_insert [] (es' ++ es) acc
                 | None => sm_insert [] [] acc
                 end
         end
  end.
Lemma entry_step_keeps l v acc c : obj_get l acc = Some v -> v <> [] -> ~ In l (label_of c) ->
  exists v', obj_get l (entry_step acc c) = Some v' /\ v' <> [].
Proof.
  intros H Hv Hl. unfold entry_step, label_of in *. destruct (pn_type c) as [|l'| | | | | | |] eqn:T;
    try (destruct (node_errors c) as [|e es]; [eauto|]; destruct (obj_get [] acc) as [es'|] eqn:E; rewrite sm_insert_get;
         destruct (str_eqb_spec l []) as [->|Hn];
         [ rewrite H in E; injection E as <-; eexists; split; [reflexivity|]; destruct v; [congruence | discriminate]
         | eauto | congruence | eauto ]).
  rewrite sm_insert_get. destruct (str_eqb_spec l l') as [->|Hn]; [exfalso; apply Hl; now left | eauto].
Qed.
Lemma entry_steps_keep : forall cs l v acc, obj_get l acc = Some v -> v <> [] -> ~ In l (flat_map label_of cs) ->
  exists v', obj_get l (fold_left entry_step cs acc) = Some v' /\ v' <> [].
Proof.
  induction cs as [|c cs IH]; intros l v acc H Hv Hl; [eauto|]. cbn in *.
  destruct (entry_step_keeps l v acc c H Hv) as [v' [H1 H2]]; [intro Hi; apply Hl, in_or_app; now left|].
  apply (IH l v' _ H1 H2). intro Hi. apply Hl, in_or_app. now right.
Qed.
Lemma nodup_app_r {A} (a b : list A) : NoDup (a ++ b) -> NoDup b.
Proof. induction a as [|u a IH]; [auto|]. intro H. inversion H; subst. auto. Qed.
Lemma nodup_app_not {A} (a b : list A) u : NoDup (a ++ b) -> In u a -> ~ In u b.
Proof.
  induction a as [|v a IH]; intros H Hu; [destruct Hu|]. inversion H; subst. destruct Hu as [->|Hu]; [|now apply IH].
  intro Hb. apply H2, in_or_app. now right.
Qed.
Lemma entries_read n : NoDup (flat_map label_of (pn_children n)) ->
  (forall c, In c (pn_children n) -> is_container c = false -> node_errors c <> [] -> own_error c <> []) ->
  (forallb (fun kv => is_nil (snd kv)) (entry_mismatches n) = true <-> Forall quiet (pn_children n)).
Proof.
  intros Hl Ho. set (cs := pn_children n) in *. split; intro H.
  - apply Forall_forall. intros c Hc. destruct (node_errors c) as [|e es] eqn:E; [exact E|]. exfalso.
    assert (HE : node_errors c <> []) by congruence. clear E e es.
    assert (HF : forallb (fun kv => is_nil (snd kv)) (entry_mismatches n) = false); [|congruence]. clear H.
    unfold entry_mismatches. fold cs. change (fold_left _ cs []) with (fold_left entry_step cs []).
    destruct (is_container c) eqn:C.
    + assert (HG : exists v, obj_get (hd [] (label_of c)) (fold_left entry_step cs []) = Some v /\ v <> []).
      { apply in_split in Hc as [c1 [c2 Ec]]. rewrite Ec in *. rewrite fold_left_app. cbn [fold_left].
        unfold is_container in C. assert (exists l, pn_type c = PContainer l) as [l T] by (destruct (pn_type c); try discriminate C; eauto).
        rewrite flat_map_app in Hl. cbn [flat_map] in Hl. apply nodup_app_r in Hl. unfold label_of at 1. rewrite T. cbn [hd].
        apply (entry_steps_keep c2 l (node_errors c)); [|exact HE|].
        - unfold entry_step. rewrite T. rewrite sm_insert_get, str_eqb_refl. reflexivity.
        - apply (nodup_app_not _ _ l Hl). unfold label_of. rewrite T. now left. }
      destruct HG as [v [G1 G2]]. destruct (errors_below false n) as [|e es] eqn:EB; [exact (not_nils _ v _ G1 G2)|].
      apply (not_nils [] (e :: es)); [rewrite sm_insert_get; now rewrite str_eqb_refl | discriminate].
    + assert (EB : errors_below false n <> []).
      { apply (errors_below_in false n c Hc (or_intror C)). intro E. apply app_eq_nil in E as [E _]. now apply (Ho c Hc C HE). }
      destruct (errors_below false n) as [|e es]; [congruence|].
      apply (not_nils [] (e :: es)); [rewrite sm_insert_get; now rewrite str_eqb_refl | discriminate].
  - unfold entry_mismatches. rewrite (quiet_errors_below false n H). fold cs. change (fold_left _ cs []) with (fold_left entry_step cs []).
    assert (HA : forallb (fun kv : str * list str => is_nil (snd kv)) [] = true) by reflexivity. revert HA. generalize (@nil (str * list str)).
    clear Hl Ho. induction H as [|c l Hc _ IH]; intros acc HA; [exact HA|]. cbn. apply IH. unfold entry_step. unfold quiet in Hc. rewrite Hc.
    destruct (pn_type c); try exact HA. now apply sm_insert_nils.
Qed.

(** ** Sorted maps *)
Lemma key_insert_perm {A} (kv : str * A) m : Permutation (key_insert kv m) (kv :: m).
Proof.
  induction m as [|kv' m IH]; [reflexivity|]. cbn [key_insert]. destruct (str_compare (fst kv) (fst kv')); try reflexivity;
    (rewrite IH; apply perm_swap).
Qed.
Lemma by_key_perm {A} (m : list (str * A)) : Permutation (by_key m) m.
Proof.
  unfold by_key. assert (G : forall (m acc : list (str * A)), Permutation (fold_left (fun acc kv => key_insert kv acc) m acc) (acc ++ m)).
  { clear m. induction m as [|kv m IH]; intro acc; cbn; [now rewrite app_nil_r|]. rewrite IH, key_insert_perm. cbn.
    now rewrite <- Permutation_middle. }
  apply (G m []).
Qed.

Lemma one_or_list_matches w ee vs us : value_matches w ee (one_or_list vs) (one_or_list us) REquality = true <-> values_accept vs us.
Proof.
  assert (HL : forall a b, list_eqb str_eqb a b = true <-> b = a).
  { induction a as [|x a IH]; intros [|y b]; cbn; try (split; [discriminate | discriminate]); [split; reflexivity|].
    rewrite andb_true_iff, IH, str_eqb_eq. split; [intros [-> ->]; reflexivity | intros [= -> ->]; split; reflexivity]. }
  assert (HN : one_or_list us = match us with [u] => NString u | _ => NSlist us end) by reflexivity.
  destruct vs as [|v [|v' vs]]; cbn [one_or_list values_accept].
  - destruct us as [|u [|u' us]]; cbn [one_or_list value_matches list_matches]; apply HL.
  - destruct us as [|u [|u' us]]; cbn [one_or_list value_matches str_matches].
    + split; [intros _ u [] | reflexivity].
    + rewrite str_eqb_eq. split; [intros -> u' [<-|[]]; reflexivity | intro H; symmetry; apply H; now left].
    + rewrite forallb_forall. split.
      * intros H t Ht. specialize (H t Ht). cbn [str_matches] in H. apply str_eqb_eq in H. congruence.
      * intros H t Ht. cbn [str_matches]. apply str_eqb_eq. symmetry. now apply H.
  - destruct us as [|u [|u' us]]; cbn [one_or_list value_matches list_matches]; apply HL.
Qed.

Section Tells.
Variable w : world.
Variable x : externals.
Variable ee : engine_texts.
Variable actual : request.
Notation evals := (evals w x ee actual).
Notation evs := (evs w x ee actual).

(** The nodes run; none reports an error when [P] holds, and one does when it does not. *)
Definition tells (st : stack) (l : list pnode) (P : Prop) : Prop :=
  exists l', evs st l l' /\ Forall2 same_type l l' /\ ((P /\ Forall quiet l') \/ (~ P /\ Exists (fun n => node_errors n <> []) l')).
Lemma judges_tells st l P : judges w x ee actual st l P -> tells st l P.
Proof.
  intros [l' [H1 [H2 H3]]]. exists l'. split; [exact H1|]. split; [exact H2|]. destruct H3 as [[HP H]|[HP H]]; [left | right]; (split; [exact HP|]).
  - eapply Forall_impl; [|exact H]. intros n. apply okay_quiet.
  - eapply Exists_impl; [|exact H]. intros n [_ Hn]. now apply loud_errors.
Qed.
Lemma tells_iff st l P Q : tells st l P -> (P <-> Q) -> tells st l Q.
Proof. intros [l' [H1 [H2 H3]]] H. exists l'. split; [exact H1|]. split; [exact H2|]. tauto. Qed.
Lemma tells_nil st : tells st [] True.
Proof. exists []. split; [constructor|]. split; [constructor|]. left. split; [exact I | constructor]. Qed.
Lemma tells_app st l1 l2 P Q : tells st l1 P -> tells st l2 Q -> tells st (l1 ++ l2) (P /\ Q).
Proof.
  intros [a [H1 [H2 H3]]] [b [H4 [H5 H6]]]. exists (a ++ b). split; [now apply evs_app|]. split; [now apply Forall2_app|].
  destruct H3 as [[HP Ha]|[HP Ha]].
  - destruct H6 as [[HQ Hb]|[HQ Hb]]; [left; split; [tauto | apply Forall_app; tauto] | right; split; [tauto | apply Exists_app; tauto]].
  - right. split; [tauto | apply Exists_app; tauto].
Qed.
Lemma tells_cons st n l P Q : tells st [n] P -> tells st l Q -> tells st (n :: l) (P /\ Q).
Proof. apply (tells_app st [n] l). Qed.
Lemma tells_one st n n' P : evals st n st n' -> same_type n n' -> (P /\ quiet n') \/ (~ P /\ node_errors n' <> []) -> tells st [n] P.
Proof.
  intros H1 H2 H3. exists [n']. split; [constructor; [exact H1 | constructor]|]. split; [constructor; [exact H2 | constructor]|].
  destruct H3 as [[HP H]|[HP H]]; [left | right]; (split; [exact HP|]); now constructor.
Qed.
Lemma tells_container st lb l P : tells st l P -> no_splat l -> tells st [container lb l] P.
Proof.
  intros [l' [H1 [H2 H3]]] Hs. eapply tells_one; [apply ev_container; [exact H1 | exact (no_splat_same _ _ H2 Hs)]|reflexivity|].
  destruct H3 as [[HP H]|[HP H]]; [left | right]; (split; [exact HP|]).
  - apply quiet_children. split; [reflexivity | exact H].
  - apply Exists_exists in H as [c [Hc He]]. now apply (errors_child _ c).
Qed.
Lemma tells_annotation st s : tells st [annotation s] True.
Proof. eapply tells_one; [apply ev_annotation | reflexivity|]. left. split; [exact I | reflexivity]. Qed.
Lemma tells_inv st n P : tells st [n] P -> exists n', evals st n st n' /\ same_type n n' /\ ((P /\ quiet n') \/ (~ P /\ node_errors n' <> [])).
Proof.
  intros [l' [H1 [H2 H3]]]. inversion H1 as [|? n' ? ? Hn Hnil]; subst. inversion Hnil; subst. inversion H2; subst. exists n'.
  split; [exact Hn|]. split; [assumption|]. destruct H3 as [[HP H]|[HP H]]; [left | right]; (split; [exact HP|]).
  - now apply Forall_inv in H.
  - apply Exists_cons in H as [H|H]; [exact H | inversion H].
Qed.

(** A check that is made only when the value is there. *)
Lemma ev_present st p v : resolve w x actual p = Ok v ->
  evals st (action "check:exists" [resolve_node p]) st (PN (PAction (S_ "check:exists")) (Some (exists_value (NVal v))) [PN (PResolve p) (Some (NVal v)) []]).
Proof.
  intro H. exact (ev_one w x ee actual st "check:exists" _ _ (fun a => exists_value (pn_value a)) (fun _ _ => eq_refl) (ev_resolve w x ee actual st p v H)).
Qed.
Lemma tells_presence st p v (yes : pnode) more (P : Prop) : resolve w x actual p = Ok v ->
  Forall quiet (yes :: more) -> (more = [] \/ v <> NNull) ->
  (v <> NNull -> tells st [yes] P) -> tells st [presence p (yes :: more)] (v <> NNull -> P).
Proof.
  intros Hr Hq Hm HP. unfold presence. pose proof (ev_present st p v Hr) as He.
  assert (HD : v = NNull \/ v <> NNull) by (destruct v; (now left) || (right; discriminate)). destruct HD as [->|Hv].
  - destruct Hm as [->|Hm]; [|congruence].
    eapply tells_one; [apply (ev_if_false2 w x ee actual st st _ yes _ He); reflexivity | reflexivity|].
    left. split; [congruence|]. apply quiet_children. split; [reflexivity|]. cbn [pn_children]. constructor; [reflexivity | exact Hq].
  - destruct (tells_inv _ _ _ (HP Hv)) as [n' [H1 [H2 H3]]].
    eapply tells_one; [apply (ev_if_true w x ee actual st _ yes more _ n' He); [destruct v; try reflexivity; congruence | exact H1] | reflexivity|].
    assert (HE : quiet (PN (PAction (S_ "check:exists")) (Some (exists_value (NVal v))) [PN (PResolve p) (Some (NVal v)) []])) by (destruct v; reflexivity).
    destruct H3 as [[HP' H]|[HP' H]]; [left | right]; (split; [tauto|]).
    + apply quiet_children. split; [reflexivity|]. constructor; [exact HE|]. constructor; [exact H | now apply Forall_inv_tail in Hq].
    + apply (errors_child _ n'); [right; now left | exact H].
Qed.
Lemma quiet_raw_equality e a : quiet e -> quiet a -> quiet (equality_node e a).
Proof. intros H1 H2. apply quiet_children. split; [reflexivity|]. repeat constructor; assumption. Qed.

(** Checks of the entries of a map, with a message. *)
Lemma tells_entries st (only : bool) a1 a2 b1 b2 ks mm m : evals st a1 st b1 -> evals st a2 st b2 ->
  value_is b1 (NSlist ks) -> value_is b2 (NMmap mm) -> quiet b1 -> quiet b2 ->
  exists n', evals st (action (if only then "expect:only-entries" else "expect:entries") [a1; a2; join_entries m]) st n' /\
    is_container n' = false /\ is_splat n' = false /\
    let P := if only then forall k, In k (map fst mm) -> In k ks else forall k, In k ks -> In k (map fst mm) in
    ((P /\ quiet n') \/ (~ P /\ own_error n' <> [])).
Proof.
  intros H1 H2 E1 E2 Q1 Q2.
  destruct (ev_args w x ee actual st 2 1 [a1; a2] [join_entries m] [b1; b2]) as [k Hk].
  { constructor; [exact H1|]. constructor; [exact H2 | constructor]. } { reflexivity. } { cbn; lia. }
  cbn [app] in Hk.
  set (diff := if only then missing_in (map fst mm) ks else missing_in ks (map fst mm)).
  set (a := if only then "expect:only-entries"%string else "expect:entries"%string).
  assert (HW : forall f, walk_node w x ee actual (walk w x ee actual f) f st (action a [a1; a2; join_entries m]) =
    check_entries w ee (walk w x ee actual f) only (PAction (S_ a)) st [a1; a2; join_entries m]) by (intro f; subst a; destruct only; reflexivity).
  pose proof (value_is_value _ _ E1) as V1. pose proof (value_is_value _ _ E2) as V2.
  assert (HD : is_nil diff = true <-> if only then forall k, In k (map fst mm) -> In k ks else forall k, In k ks -> In k (map fst mm)).
  { subst diff. destruct only; apply is_nil_missing. }
  destruct (is_nil diff) eqn:ED.
  - exists (PN (PAction (S_ a)) (Some NOk) [b1; b2; join_entries m]). split; [|split; [reflexivity|]; split; [reflexivity|]].
    + apply ev_node. exists k. intros f Hf. rewrite HW. unfold check_entries. rewrite Hk by assumption. cbn [catch_]. rewrite V1, V2.
      cbn [value_or_null v_slist dflt entries_of]. fold diff. rewrite ED. reflexivity.
    + left. split; [now apply HD|]. apply quiet_children. split; [reflexivity|]. constructor; [exact Q1|]. constructor; [exact Q2|]. constructor; [reflexivity | constructor].
  - destruct (ev_join_entries w x ee actual st m diff) as [k2 Hk2].
    eexists (PN (PAction (S_ a)) (Some (NErr (S_ m ++ join_with (S_ ", ") diff))) [b1; b2; _]). split; [|split; [reflexivity|]; split; [reflexivity|]].
    + apply ev_node. exists (k + k2)%nat. intros f Hf. rewrite HW. unfold check_entries. rewrite Hk by lia. cbn [catch_]. rewrite V1, V2.
      cbn [value_or_null v_slist dflt entries_of]. fold diff. rewrite ED. unfold custom_error. rewrite Hk2 by lia. cbn [catch_ then_ tl]. reflexivity.
    + right. split; [intro H; apply HD in H; discriminate H | discriminate].
Qed.
End Tells.
