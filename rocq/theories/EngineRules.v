(** Matching rules in a plan: what a rule node decides. *)
From Coq Require Import Ascii String List Arith NArith ZArith Lia Bool Permutation.
From Verif Require Import Base PathExp Json Text TextProofs MatchingRules Matchers JsonCompare Headers HeaderProofs2 Query ContentType Http Base64 Engine EnginePlan EngineProofs SpecHeaders SpecEngine EngineJson EngineJudge EngineParts.
Import ListNotations.
Open Scope N_scope.

(** The rule made again from its name and values is the same rule. *)
Lemma carried_created w r : carried r -> create_rule w (rule_name r) (rule_values r) = Ok r.
Proof.
  destruct r as [| | | | | | | | | | | | | | | | | |s| | | |]; intro H; try (destruct H; fail); try reflexivity.
  unfold create_rule, rule_values, rule_name, rule_create.
  repeat match goal with |- context [str_eqb (S_ ?a) (S_ ?b)] => let v := eval vm_compute in (str_eqb (S_ a) (S_ b)) in replace (str_eqb (S_ a) (S_ b)) with v by reflexivity end.
  cbn [orb]. replace (obj_get (S_ "status") [(S_ "status", status_to_json s)]) with (Some (status_to_json s)) by reflexivity.
  destruct s as [codes| | | | | | |]; try reflexivity. cbn [status_to_json status_from_json]. cbn [carried] in H.
  replace (codes_from_json (map (fun c => JNum (PosInt c)) codes)) with (Some codes); [reflexivity|].
  induction codes as [|c l IH]; [reflexivity|]. apply Forall_inv in H as H1. apply Forall_inv_tail in H. cbn [map codes_from_json]. rewrite <- IH by assumption.
  cbn [code_from_json]. now rewrite N.mod_small.
Qed.
Lemma refused_fails w r : refused r -> exists e, create_rule w (rule_name r) (rule_values r) = Err e.
Proof.
  destruct r as [| | | | |a b| | | | | | | | | |vs| | | | | | |]; intro H; try (destruct H; fail).
  eexists. reflexivity.
Qed.

Section Rules.
Variable w : world.
Variable x : externals.
Variable ee : engine_texts.
Variable actual : request.
Notation evals := (evals w x ee actual).
Notation evs := (evs w x ee actual).
Notation tells := (tells w x ee actual).

(** What a rule says of two values: the rule that is made from the written form has to hold. *)
Definition rule_holds (collection : bool) (r : rule) (e a : nvalue) : Prop :=
  let m := if collection then r else for_single_item r in
  exists r', create_rule w (rule_name m) (rule_values m) = Ok r' /\ value_matches w ee e a r' = true.
Definition rule_runs (collection : bool) (r : rule) : Prop :=
  let m := if collection then r else for_single_item r in create_rule w (rule_name m) (rule_values m) <> Panic.

Lemma ev_rule_err st m a1 a2 a3 b1 b2 b3 v1 v2 v3 e :
  evals st a1 st b1 -> evals st a2 st b2 -> evals st a3 st b3 ->
  value_is b1 v1 -> value_is b2 v2 -> value_is b3 v3 ->
  create_rule w m (dflt (v_json v3) JNull) = Err e ->
  evals st (PN (PAction (S_ "match:" ++ m)) None [a1; a2; a3]) st
    (PN (PAction (S_ "match:" ++ m)) (Some (NErr (S_ "is not a valid matching rule type"))) [a1; a2; a3]).
Proof.
  intros H1 H2 H3 E1 E2 E3 Hr.
  destruct (ev_args w x ee actual st 3 1 [a1; a2; a3] [] [b1; b2; b3]) as [k Hk].
  { constructor; [exact H1|]. constructor; [exact H2|]. constructor; [exact H3 | constructor]. } { reflexivity. } { cbn; lia. }
  apply ev_node. exists k. intros f Hf. unfold walk_node. rewrite (action_match w x ee actual f _ st None _ m eq_refl).
  unfold execute_match. cbn [app] in Hk. rewrite Hk by assumption. cbn [catch_].
  rewrite (value_is_value _ _ E1), (value_is_value _ _ E2), (value_is_value _ _ E3). cbn [value_or_error]. rewrite Hr. reflexivity.
Qed.
(** One rule: the node is quiet with the value true, or has an error. *)
Lemma one_rule st e a b1 b2 v1 v2 collection r : evals st e st b1 -> evals st a st b2 -> value_is b1 v1 -> value_is b2 v2 ->
  quiet b1 -> quiet b2 -> rule_runs collection r ->
  exists n', evals st (one_rule_node e a collection r) st n' /\ same_type (one_rule_node e a collection r) n' /\
    ((rule_holds collection r v1 v2 /\ quiet n' /\ value_is n' (NBool true)) \/ (~ rule_holds collection r v1 v2 /\ exists m, pn_result n' = Some (NErr m))).
Proof.
  intros H1 H2 E1 E2 Q1 Q2 Hrun. unfold one_rule_node, rule_holds, rule_runs in *. cbv zeta in *. set (m := if collection then r else for_single_item r) in *.
  assert (H3 : evals st (value_node (NJson (rule_values m))) st (PN (PValue (NJson (rule_values m))) (Some (NVal (NJson (rule_values m)))) [])) by (now apply ev_value).
  destruct (create_rule w (rule_name m) (rule_values m)) as [r'|er|] eqn:Ec; [| |congruence].
  - eexists. split; [exact (ev_match w x ee actual st (rule_name m) e a _ b1 b2 _ v1 v2 (NJson (rule_values m)) r' H1 H2 H3 E1 E2 eq_refl Ec)|].
    split; [reflexivity|]. destruct (value_matches w ee v1 v2 r') eqn:Em; [left | right].
    + split; [exists r'; split; [reflexivity | exact Em]|]. split; [|reflexivity]. apply quiet_children. split; [reflexivity|]. constructor; [exact Q1|]. constructor; [exact Q2|]. constructor; [reflexivity | constructor].
    + split; [intros [r2 [E Er]]; injection E as <-; congruence|]. eexists. reflexivity.
  - eexists. split; [exact (ev_rule_err st (rule_name m) e a _ b1 b2 _ v1 v2 (NJson (rule_values m)) er H1 H2 H3 E1 E2 eq_refl Ec)|].
    split; [reflexivity|]. right. split; [intros [r2 [E _]]; discriminate E|]. eexists. reflexivity.
Qed.
(** Several rules: a failing one ends the evaluation with its error, for "and" and for "or". *)
Lemma rules_evaluated st e a b1 b2 v1 v2 collection : evals st e st b1 -> evals st a st b2 -> value_is b1 v1 -> value_is b2 v2 ->
  quiet b1 -> quiet b2 -> forall rs, Forall (rule_runs collection) rs ->
  exists k, exists (ch' : list pnode) (ok : bool), (if ok then Forall (fun r => rule_holds collection r v1 v2) rs /\ Forall quiet ch' else ~ Forall (fun r => rule_holds collection r v1 v2) rs) /\
    exists (vs : list nvalue) (e' : str), forall f g, (k <= f)%nat -> (k <= g)%nat -> forall done vs0,
      evaluate (walk w x ee actual f) g st (map (one_rule_node e a collection) rs) done vs0 = Runs st (if ok then inl (done ++ ch', vs0 ++ vs) else inr (e', done ++ ch')).
Proof.
  intros H1 H2 E1 E2 Q1 Q2. induction rs as [|r rs IH]; intro HR.
  - exists O, [], true. split; [split; constructor|]. exists (@nil nvalue), (@nil N). intros f g _ _ done vs0. destruct g; cbn; now rewrite !app_nil_r.
  - destruct (one_rule st e a b1 b2 v1 v2 collection r H1 H2 E1 E2 Q1 Q2 (Forall_inv HR)) as [n' [[k1 Hn] [Ht Hcase]]].
    assert (Hs : is_splat n' = false) by (unfold is_splat; rewrite Ht; reflexivity).
    destruct Hcase as [[Hh [Hq Hv]]|[Hh [m Hm]]].
    + destruct (IH (Forall_inv_tail HR)) as [k [ch' [ok [Hok [vs [e' Hev]]]]]]. exists (S (k1 + k)), (n' :: ch'), ok. split.
      * destruct ok; [destruct Hok as [G1 G2]; split; constructor; assumption|]. intro F. apply Hok. now apply Forall_inv_tail in F.
      * exists (NBool true :: vs), e'. intros f g Hf Hg done vs0. destruct g as [|g]; [lia|]. cbn [map evaluate]. replace (pn_result (one_rule_node e a collection r)) with (@None nresult) by reflexivity.
        rewrite Hn by lia. cbn [catch_]. rewrite Hs, (value_is_value _ _ Hv), Hev by lia. rewrite <- !app_assoc. reflexivity.
    + exists (S k1), [n'], false. split; [intro F; apply Hh; exact (Forall_inv F)|]. exists (@nil nvalue), m. intros f g Hf Hg done vs0. destruct g as [|g]; [lia|]. cbn [map evaluate].
      replace (pn_result (one_rule_node e a collection r)) with (@None nresult) by reflexivity.
      rewrite Hn by lia. cbn [catch_]. rewrite Hs. unfold pn_value. rewrite Hm. reflexivity.
Qed.
Lemma tells_rule_node st e a b1 b2 v1 v2 collection rl : evals st e st b1 -> evals st a st b2 -> value_is b1 v1 -> value_is b2 v2 ->
  quiet b1 -> quiet b2 -> Forall (rule_runs collection) (rl_rules rl) ->
  tells st [rule_node e a rl collection] (Forall (fun r => rule_holds collection r v1 v2) (rl_rules rl)).
Proof.
  intros H1 H2 E1 E2 Q1 Q2 HR. unfold rule_node.
  assert (HM : forall logic, tells st [action (match logic with And => "and" | Or => "or" end) (map (one_rule_node e a collection) (rl_rules rl))]
     (Forall (fun r => rule_holds collection r v1 v2) (rl_rules rl))).
  { intro logic. destruct (rules_evaluated st e a b1 b2 v1 v2 collection H1 H2 E1 E2 Q1 Q2 (rl_rules rl) HR) as [k [ch' [ok [Hok [vs [e' Hev]]]]]].
    assert (HE : exists r, (ok = true -> own_error (PN PEmpty (Some r) []) = []) /\ (ok = false -> r = NErr e') /\
      evals st (action (match logic with And => "and" | Or => "or" end) (map (one_rule_node e a collection) (rl_rules rl))) st
        (PN (PAction (S_ (match logic with And => "and" | Or => "or" end))) (Some r) ch')).
    { destruct ok.
      - exists (NVal (fold_left (match logic with And => and_v | Or => or_v end) vs NNull)). split; [reflexivity|]. split; [discriminate|].
        apply ev_node. exists k. intros f Hf. destruct logic; unfold walk_node, action.
        + replace (execute_action w x ee (walk w x ee actual f) f (S_ "and") st None (map (one_rule_node e a collection) (rl_rules rl))) with
            (with_values (walk w x ee actual f) f (PAction (S_ "and")) st (map (one_rule_node e a collection) (rl_rules rl)) (fun vs => NVal (fold_left and_v vs NNull))) by reflexivity.
          unfold with_values. rewrite Hev by lia. reflexivity.
        + replace (execute_action w x ee (walk w x ee actual f) f (S_ "or") st None (map (one_rule_node e a collection) (rl_rules rl))) with
            (with_values (walk w x ee actual f) f (PAction (S_ "or")) st (map (one_rule_node e a collection) (rl_rules rl)) (fun vs => NVal (fold_left or_v vs NNull))) by reflexivity.
          unfold with_values. rewrite Hev by lia. reflexivity.
      - exists (NErr e'). split; [discriminate|]. split; [reflexivity|].
        apply ev_node. exists k. intros f Hf. destruct logic; unfold walk_node, action.
        + replace (execute_action w x ee (walk w x ee actual f) f (S_ "and") st None (map (one_rule_node e a collection) (rl_rules rl))) with
            (with_values (walk w x ee actual f) f (PAction (S_ "and")) st (map (one_rule_node e a collection) (rl_rules rl)) (fun vs => NVal (fold_left and_v vs NNull))) by reflexivity.
          unfold with_values. rewrite Hev by lia. reflexivity.
        + replace (execute_action w x ee (walk w x ee actual f) f (S_ "or") st None (map (one_rule_node e a collection) (rl_rules rl))) with
            (with_values (walk w x ee actual f) f (PAction (S_ "or")) st (map (one_rule_node e a collection) (rl_rules rl)) (fun vs => NVal (fold_left or_v vs NNull))) by reflexivity.
          unfold with_values. rewrite Hev by lia. reflexivity. }
    destruct HE as [r [R1 [R2 HE]]]. eapply tells_one; [exact HE | reflexivity|]. destruct ok.
    - left. destruct Hok as [G1 G2]. split; [exact G1|]. apply quiet_children. split; [exact (R1 eq_refl) | exact G2].
    - right. split; [exact Hok|]. rewrite (R2 eq_refl). unfold node_errors. cbn. discriminate. }
  destruct (rl_rules rl) as [|r [|r' rs]] eqn:Er; [apply HM | | apply HM].
  destruct (one_rule st e a b1 b2 v1 v2 collection r H1 H2 E1 E2 Q1 Q2 (Forall_inv HR)) as [n' [Hn [Ht Hcase]]].
  eapply tells_one; [exact Hn | exact Ht|]. destruct Hcase as [[Hh [Hq Hv]]|[Hh [m Hm]]]; [left | right].
  - split; [constructor; [exact Hh | constructor] | exact Hq].
  - split; [intro F; apply Hh; exact (Forall_inv F)|]. destruct n' as [t r0 ch]. cbn in Hm. subst r0. unfold node_errors. cbn. discriminate.
Qed.
Lemma quiet_rule_node e a rl collection : quiet e -> quiet a -> quiet (rule_node e a rl collection).
Proof.
  intros He Ha. assert (H1 : forall r, quiet (one_rule_node e a collection r)).
  { intro r. apply quiet_children. split; [reflexivity|]. constructor; [exact He|]. constructor; [exact Ha|]. constructor; [reflexivity | constructor]. }
  assert (HM : forall (l : string) rs, quiet (action l (map (one_rule_node e a collection) rs))).
  { intros l rs. apply quiet_children. split; [reflexivity|]. apply Forall_forall. intros n Hn. apply in_map_iff in Hn as [r [<- _]]. apply H1. }
  unfold rule_node. destruct (rl_rules rl) as [|r [|r' rs]]; [apply HM | apply H1 | apply HM].
Qed.
Lemma rule_node_splat e a rl collection : is_splat (rule_node e a rl collection) = false.
Proof. unfold rule_node. destruct (rl_rules rl) as [|r [|r' rs]]; reflexivity. Qed.

(** The rules that apply to a name. *)
Definition selected_rules (c : context) (k : str) : option (list rule) :=
  if ctx_matcher_is_defined c (join path_root k) then Some (rl_rules (ctx_select_best c (join path_root k))) else None.
(** Rules on texts and lists of texts. *)
Definition text_sat (r : rule) (e a : str) : Prop := str_matches w e a r false = true.
Definition list_sat (r : rule) (e a : list str) : Prop := list_matches str_eqb e a r false = true.
Definition usable (r : rule) : Prop := carried r \/ refused r.
Lemma usable_runs r : usable r -> rule_runs true r.
Proof.
  intros [H|H]; unfold rule_runs; cbv zeta.
  - now rewrite (carried_created w r H).
  - destruct (refused_fails w r H) as [e E]. now rewrite E.
Qed.
Lemma refused_not_carried r : refused r -> ~ carried r.
Proof. destruct r; cbn; tauto. Qed.
Lemma holds_list r vs us : usable r -> (rule_holds true r (one_or_list vs) (one_or_list us) <-> carried r /\ rule_accepts text_sat list_sat r vs us).
Proof.
  intros [H|H]; unfold rule_holds; cbv zeta.
  - rewrite (carried_created w r H). 
    assert (G : value_matches w ee (one_or_list vs) (one_or_list us) r = true <-> rule_accepts text_sat list_sat r vs us).
    { destruct vs as [|v [|v' vs]]; destruct us as [|u [|u' us]]; cbn [one_or_list value_matches rule_accepts forallb]; unfold text_sat, list_sat; try reflexivity.
      - split; [intros _ u [] | reflexivity].
      - split; [intros G u0 [<-|[]]; exact G | intro G; apply G; now left].
      - rewrite !andb_true_iff, forallb_forall. split; [intros [G1 [G2 G3]] u0 [<-|[<-|Hu]]; auto | intro G; repeat split; [apply G; now left | apply G; right; now left | intros u0 Hu; apply G; right; now right]]. }
    split; [intros [r' [E Hv]]; injection E as <-; split; [exact H | now apply G] | intros [_ Ha]; exists r; split; [reflexivity | now apply G]].
  - destruct (refused_fails w r H) as [e E]. rewrite E. split; [intros [r' [E' _]]; discriminate E' | intros [Hc _]; exfalso; exact (refused_not_carried r H Hc)].
Qed.
Lemma single_sat r e a : text_sat (for_single_item r) e a <-> text_sat r e a.
Proof. destruct r; reflexivity. Qed.
Lemma holds_text r e a : carried (for_single_item r) -> (rule_holds false r (NString e) (NString a) <-> text_sat r e a).
Proof.
  intro H. unfold rule_holds. cbv zeta. rewrite (carried_created w _ H), <- single_sat. split; [intros [r' [E Hv]]; injection E as <-; exact Hv | intro Hs; eexists; split; [reflexivity | exact Hs]].
Qed.
Lemma single_runs r : carried (for_single_item r) -> rule_runs false r.
Proof. intro H. unfold rule_runs. cbv zeta. now rewrite (carried_created w _ H). Qed.
End Rules.
