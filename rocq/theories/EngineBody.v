(** The body part of a request plan without rules. *)
From Coq Require Import Ascii String List Arith NArith ZArith Lia Bool Permutation.
From Verif Require Import Base PathExp Json Text TextProofs MatchingRules Matchers JsonCompare Headers HeaderProofs2 Query ContentType Http Base64 Engine EnginePlan EngineProofs SpecHeaders SpecEngine EngineJson EngineJudge EngineParts.
Import ListNotations.
Open Scope N_scope.

(** Reading the body part. *)
Definition body_read (w : world) (n : pnode) : v2_body :=
  if is_truthy (pn_value n) then V2Ok
  else match pn_type n, pn_children n with
       | PEmpty, _ | _, [] =>
           match pn_result n with Some (NErr e) => V2Mismatches [([], [e])] | _ => V2Ok end
       | _, _ =>
           let first := dflt (node_error n) [] in
           if starts_with (S_ "body type error") (to_lower w first) then V2TypeMismatch first
           else
             let g := fold_left (fun acc lc =>
               match errors_below false (snd lc) with [] => acc | es => sm_insert (fst lc) es acc end) (containers n) [] in
             V2Mismatches (match first with
                           | [] => g
                           | _ => sm_insert [] (dflt (obj_get [] g) [] ++ [first]) g
                           end)
       end.
Lemma body_read_of w plan : v2_body_mismatches w plan = body_read w (part_of plan "body").
Proof. reflexivity. Qed.

Definition inserted (acc : list (str * list str)) (lc : str * pnode) : list (str * list str) :=
  match errors_below false (snd lc) with [] => acc | es => sm_insert (fst lc) es acc end.
Lemma inserted_keeps l : forall acc, (exists k v, obj_get k acc = Some v /\ v <> []) -> exists k v, obj_get k (fold_left inserted l acc) = Some v /\ v <> [].
Proof.
  induction l as [|lc l IH]; intros acc H; [exact H|]. cbn [fold_left]. apply IH. unfold inserted. destruct (errors_below false (snd lc)) as [|e es]; [exact H|].
  exists (fst lc), (e :: es). split; [rewrite sm_insert_get; now rewrite str_eqb_refl | discriminate].
Qed.
Lemma inserted_some l lc : In lc l -> errors_below false (snd lc) <> [] -> forall acc, exists k v, obj_get k (fold_left inserted l acc) = Some v /\ v <> [].
Proof.
  intros Hin He. induction l as [|lc' l IH]; intro acc; [destruct Hin|]. cbn [fold_left]. destruct Hin as [->|Hin]; [|now apply IH].
  apply inserted_keeps. unfold inserted. destruct (errors_below false (snd lc)) as [|e es]; [congruence|].
  exists (fst lc), (e :: es). split; [rewrite sm_insert_get; now rewrite str_eqb_refl | discriminate].
Qed.
Section Read.
Variable w : world.
Lemma read_okay n : is_truthy (pn_value n) = true -> v2_body_matched (body_read w n) = true.
Proof. unfold body_read. now intros ->. Qed.
Lemma read_error lb r ch m : is_truthy (pn_value (PN (PContainer lb) r ch)) = false -> node_error (PN (PContainer lb) r ch) = Some m -> m <> [] -> ch <> [] ->
  v2_body_matched (body_read w (PN (PContainer lb) r ch)) = false.
Proof.
  intros Ht He Hm Hc. unfold body_read. rewrite Ht, He. cbn [pn_type pn_children dflt]. destruct ch as [|c ch]; [congruence|].
  destruct (starts_with (S_ "body type error") (to_lower w m)); [reflexivity|]. destruct m as [|b m]; [congruence|]. cbn [v2_body_matched].
  apply (not_nils [] (dflt (obj_get [] (fold_left inserted (containers (PN (PContainer lb) r (c :: ch))) [])) [] ++ [b :: m])).
  - rewrite sm_insert_get, str_eqb_refl. reflexivity.
  - destruct (dflt _ _); discriminate.
Qed.
Lemma read_loud lb r ch lc : is_truthy (pn_value (PN (PContainer lb) r ch)) = false -> In lc (containers (PN (PContainer lb) r ch)) -> errors_below false (snd lc) <> [] ->
  v2_body_matched (body_read w (PN (PContainer lb) r ch)) = false.
Proof.
  intros Ht Hin He. unfold body_read. rewrite Ht. cbn [pn_type pn_children]. destruct ch as [|c ch]; [destruct Hin|].
  destruct (starts_with (S_ "body type error") (to_lower w (dflt (node_error (PN (PContainer lb) r (c :: ch))) []))); [reflexivity|]. cbn [v2_body_matched].
  destruct (inserted_some _ lc Hin He []) as [k [v [G1 G2]]]. change (fold_left _ _ []) with (fold_left inserted (containers (PN (PContainer lb) r (c :: ch))) []).
  destruct (dflt (node_error (PN (PContainer lb) r (c :: ch))) []) as [|b m]; [exact (not_nils _ _ _ G1 G2)|].
  apply (not_nils [] (dflt (obj_get [] (fold_left inserted (containers (PN (PContainer lb) r (c :: ch))) [])) [] ++ [b :: m])).
  - rewrite sm_insert_get, str_eqb_refl. reflexivity.
  - destruct (dflt _ _); discriminate.
Qed.
(** An error without a text, and nothing below: accepted. *)
Lemma read_silent lb r ch : node_error (PN (PContainer lb) r ch) = Some [] -> starts_with (S_ "body type error") (to_lower w []) = false ->
  (forall lc, In lc (containers (PN (PContainer lb) r ch)) -> errors_below false (snd lc) = []) ->
  is_truthy (pn_value (PN (PContainer lb) r ch)) = false -> (forall e, r <> Some (NErr e)) ->
  v2_body_matched (body_read w (PN (PContainer lb) r ch)) = true.
Proof.
  intros He Hs Hq Ht Hr. unfold body_read. rewrite Ht, He. cbn [pn_type pn_children dflt pn_result]. destruct ch as [|c ch].
  - destruct r as [[| |e]|]; try reflexivity. exfalso. exact (Hr e eq_refl).
  - rewrite Hs. cbn [v2_body_matched]. change (fold_left _ _ []) with (fold_left inserted (containers (PN (PContainer lb) r (c :: ch))) []).
    assert (G : forall l acc, (forall lc, In lc l -> errors_below false (snd lc) = []) -> fold_left inserted l acc = acc).
    { clear. induction l as [|lc l IH]; intros acc H; [reflexivity|]. cbn [fold_left]. rewrite IH by (intros; apply H; now right). unfold inserted. now rewrite (H lc (or_introl eq_refl)). }
    now rewrite G.
Qed.
End Read.

Section BodyPart.
Variable w : world.
Variable x : externals.
Variable ee : engine_texts.
Variable actual : request.
Notation evals := (evals w x ee actual).
Notation evs := (evs w x ee actual).

Lemma walk_last st l l' : evs st l l' -> no_splat l' -> forall n st1 n', evals st n st1 n' -> is_splat n' = false ->
  exists N, forall f g, (N <= f)%nat -> (N <= g)%nat -> forall status done,
    queue_container (walk w x ee actual f) g st (l ++ [n]) status done = Runs st1 (folded (l' ++ [n']) status, done ++ l' ++ [n']).
Proof.
  induction 1 as [|c c' l l' [k1 H1] _ IH]; intros Hs n st1 n' Hn Hsn.
  - destruct Hn as [k Hk]. exists (S (S k)). intros f g Hf Hg status done. destruct g as [|[|g]]; [lia|lia|]. cbn [app queue_container]. rewrite Hk by lia. cbn [then_].
    rewrite Hsn. cbn [queue_container folded fold_left]. reflexivity.
  - destruct (IH (Forall_inv_tail Hs) n st1 n' Hn Hsn) as [k2 H2]. exists (S (k1 + k2)). intros f g Hf Hg status done.
    destruct g as [|g]; [lia|]. cbn [app queue_container]. rewrite H1 by lia. cbn [then_].
    rewrite (Forall_inv Hs), H2 by lia. cbn [folded fold_left app]. now rewrite <- app_assoc.
Qed.
Lemma ev_container_last st lb l l' n st1 n' : evs st l l' -> no_splat l' -> evals st n st1 n' -> is_splat n' = false ->
  evals st (container lb (l ++ [n])) st1 (PN (PContainer lb) (Some (truthy (folded (l' ++ [n']) NOk))) (l' ++ [n'])).
Proof.
  intros H Hs Hn Hsn. destruct (walk_last st l l' H Hs n st1 n' Hn Hsn) as [k Hk]. apply ev_node. exists k. intros f Hf. cbn.
  rewrite Hk by assumption. reflexivity.
Qed.

Lemma resolve_body : resolve w x actual (known_path w "$.body") = Ok (match req_body actual with BPresent b _ _ => NBytes b | _ => NNull end).
Proof. reflexivity. Qed.
Lemma resolve_type : resolve w x actual (known_path w "$.content-type") = Ok (match content_type_of w x (req_part actual) with Some ct => NString (ct_show ct) | None => NNull end).
Proof. reflexivity. Qed.

(** The comparison of the content types. *)
Definition types_agree (e : request) : Prop := exists ct, content_type_of w x (req_part actual) = Some ct /\ ct_show ct = ct_show (expected_type w x e).
Definition type_value : nvalue := match content_type_of w x (req_part actual) with Some ct => NString (ct_show ct) | None => NNull end.
Lemma type_text_slash ct : In 47 (ct_show ct).
Proof.
  unfold ct_show. destruct (suffix ct); destruct (attributes ct); rewrite !in_app_iff; cbn [In]; tauto.
Qed.
Lemma types_checked e : value_matches w ee (NString (ct_show (expected_type w x e))) type_value REquality = true <-> types_agree e.
Proof.
  unfold types_agree, type_value. destruct (content_type_of w x (req_part actual)) as [ct|]; cbn [value_matches str_matches].
  - rewrite str_eqb_eq. split; [intro H; exists ct; split; [reflexivity | congruence] | intros [ct' [E H]]; injection E as <-; congruence].
  - rewrite str_eqb_eq. split; [|intros [ct [E _]]; discriminate E]. intro H. exfalso. pose proof (type_text_slash (expected_type w x e)) as Hs. rewrite H in Hs.
    cbn in Hs. repeat (destruct Hs as [Hs|Hs]; [discriminate Hs|]). destruct Hs.
Qed.
Definition error_arg : pnode := action "error" [text_node "Body type error - "; action "apply" []].
Lemma ev_type_same e : types_agree e ->
  evals [] (type_check w x e) [] (PN (PAction (S_ "match:equality")) (Some (NVal (NBool true)))
    [PN (PValue (NString (ct_show (expected_type w x e)))) (Some (NVal (NString (ct_show (expected_type w x e))))) [];
     PN (PResolve (known_path w "$.content-type")) (Some (NVal type_value)) []; PN (PValue NNull) (Some (NVal NNull)) []; error_arg]).
Proof.
  intro H. apply types_checked in H.
  destruct (ev_args w x ee actual [] 3 1 [value_node (NString (ct_show (expected_type w x e))); resolve_node (known_path w "$.content-type"); value_node NNull] [error_arg]
     [PN (PValue (NString (ct_show (expected_type w x e)))) (Some (NVal (NString (ct_show (expected_type w x e))))) [];
     PN (PResolve (known_path w "$.content-type")) (Some (NVal type_value)) []; PN (PValue NNull) (Some (NVal NNull)) []]) as [k Hk].
  { constructor; [apply ev_text|]. constructor; [apply ev_resolve; exact resolve_type|]. constructor; [apply ev_null | constructor]. } { reflexivity. } { cbn; lia. }
  cbn [app] in Hk. apply ev_node. exists k. intros f Hf. unfold type_check, action. unfold walk_node.
  rewrite (action_match w x ee actual f _ [] None _ (S_ "equality") eq_refl). unfold execute_match. fold error_arg. unfold error_arg, action in Hk. rewrite Hk by assumption. cbn [catch_].
  cbn [pn_value pn_result value_or_error]. rewrite equality_created, H. reflexivity.
Qed.
Lemma ev_error_arg m st : exists ch, evals (Some (NErr m) :: st) error_arg (Some (NErr m) :: st) (PN (PAction (S_ "error")) (Some (NErr m)) ch) /\ containers (PN (PAction (S_ "error")) (Some (NErr m)) ch) = [].
Proof.
  exists [PN (PValue (NString (S_ "Body type error - "))) (Some (NVal (NString (S_ "Body type error - ")))) []; PN (PAction (S_ "apply")) (Some (NErr m)) []].
  split; [|reflexivity]. apply ev_node. exists 5%nat. intros f Hf. unfold error_arg. destruct f as [|[|[|f]]]; [lia|lia|lia|].
  change (walk_node w x ee actual (walk w x ee actual (S (S (S f)))) (S (S (S f))) (Some (NErr m) :: st) (action "error" [text_node "Body type error - "; action "apply" []])) with
    (with_values (walk w x ee actual (S (S (S f)))) (S (S (S f))) (PAction (S_ "error")) (Some (NErr m) :: st) [text_node "Body type error - "; action "apply" []] (fun vs => NErr (joined w ee false vs))).
  unfold with_values. cbn [evaluate]. replace (pn_result (text_node "Body type error - ")) with (@None nresult) by reflexivity.
  replace (pn_result (action "apply" [])) with (@None nresult) by reflexivity.
  assert (HT : walk w x ee actual (S (S (S f))) (Some (NErr m) :: st) (text_node "Body type error - ") = Runs (Some (NErr m) :: st) (PN (PValue (NString (S_ "Body type error - "))) (Some (NVal (NString (S_ "Body type error - ")))) [])) by reflexivity.
  assert (HA : walk w x ee actual (S (S (S f))) (Some (NErr m) :: st) (action "apply" []) = Runs (Some (NErr m) :: st) (PN (PAction (S_ "apply")) (Some (NErr m)) [])) by reflexivity.
  rewrite HT. cbn [catch_ is_splat pn_type pn_value pn_result]. rewrite HA. reflexivity.
Qed.
Lemma ev_type_other e : ~ types_agree e -> exists ch, evals [] (type_check w x e) [Some (NErr (S_ "Expected"))] (PN (PAction (S_ "match:equality")) (Some (NErr [])) ch) /\ containers (PN (PAction (S_ "match:equality")) (Some (NErr [])) ch) = [].
Proof.
  intro H.
  assert (HM : value_matches w ee (NString (ct_show (expected_type w x e))) type_value REquality = false) by (destruct (value_matches _ _ _ _ _) eqn:E; [exfalso; now apply H, types_checked | reflexivity]).
  destruct (ev_args w x ee actual [] 3 1 [value_node (NString (ct_show (expected_type w x e))); resolve_node (known_path w "$.content-type"); value_node NNull] [error_arg]
     [PN (PValue (NString (ct_show (expected_type w x e)))) (Some (NVal (NString (ct_show (expected_type w x e))))) [];
     PN (PResolve (known_path w "$.content-type")) (Some (NVal type_value)) []; PN (PValue NNull) (Some (NVal NNull)) []]) as [k Hk].
  { constructor; [apply ev_text|]. constructor; [apply ev_resolve; exact resolve_type|]. constructor; [apply ev_null | constructor]. } { reflexivity. } { cbn; lia. }
  destruct (ev_error_arg (S_ "Expected") []) as [ch [[k2 Hk2] Hc]].
  exists ([PN (PValue (NString (ct_show (expected_type w x e)))) (Some (NVal (NString (ct_show (expected_type w x e))))) [];
     PN (PResolve (known_path w "$.content-type")) (Some (NVal type_value)) []; PN (PValue NNull) (Some (NVal NNull)) []] ++ [PN (PAction (S_ "error")) (Some (NErr (S_ "Expected"))) ch]).
  split; [|cbn [containers] in Hc |- *; cbn [app flat_map pn_type]; rewrite app_nil_r; exact Hc].
  - apply ev_node. exists (k + k2)%nat. intros f Hf. unfold type_check, action. unfold walk_node.
  rewrite (action_match w x ee actual f _ [] None _ (S_ "equality") eq_refl). unfold execute_match. cbn [app] in Hk. unfold error_arg, action in Hk. rewrite Hk by lia. cbn [catch_].
  cbn [pn_value pn_result value_or_error]. rewrite equality_created, HM. unfold custom_error. unfold error_arg, action in Hk2. rewrite Hk2 by lia. cbn [catch_ pn_value pn_result as_string dflt app]. reflexivity.
Qed.

Lemma quiet_node t ch : Forall quiet ch -> quiet (PN t None ch).
Proof. intro H. apply quiet_children. split; [reflexivity | exact H]. Qed.
Section NoRules.
Variable c : context.
Hypothesis Hrules : forall p, ctx_matcher_is_defined c p = false.
Hypothesis Hbest : forall p, rl_is_empty (ctx_select_best c p) = true.
Hypothesis Hallow : allow c = false.
Lemma quiet_items p : forall l i, Forall quiet (items_plan w c p i l).
Proof.
  induction l as [|v l IH]; intro i; [constructor|]. cbn [items_plan]. apply Forall_app. split; [|apply IH]. destruct (is_structure v); [constructor|].
  constructor; [|constructor]. unfold item_check. rewrite Hrules. reflexivity.
Qed.
Lemma quiet_json : forall j p, Forall quiet (json_plan w c j p).
Proof.
  induction j as [ | | | |l _|m IH] using json_ind'; intro p; cbn [json_plan]; rewrite ?Hrules; try (constructor; [reflexivity | constructor]).
  - destruct l; [constructor; [reflexivity | constructor]|]. constructor; [reflexivity | apply quiet_items].
  - rewrite Hbest. cbn [negb andb]. apply Forall_app. split.
    + destruct m; [constructor; [reflexivity | constructor]|]. rewrite Hallow. constructor; [reflexivity|]. constructor; [reflexivity | constructor].
    + apply Forall_forall. intros n Hn. apply in_map_iff in Hn as [[k v] [<- Hin]]. apply quiet_node. rewrite Forall_forall in IH. exact (IH _ Hin _).
Qed.

(** A present body of the same type. *)
Lemma ev_if_body e n n' : types_agree e -> evals [] n [] n' -> is_splat n' = false ->
  exists m, evals [] (container (S_ "body") [action "if" [type_check w x e; n]]) []
    (PN (PContainer (S_ "body")) (Some (truthy (pn_value n'))) [PN (PAction (S_ "if")) (Some (truthy (pn_value n'))) [m; n']]) /\ quiet m /\ is_container m = false.
Proof.
  intros Ht Hn Hs. pose proof (ev_type_same e Ht) as HT. eexists. split.
  - assert (HI := ev_if_true w x ee actual [] (type_check w x e) n [] _ n' HT eq_refl Hn).
    assert (E : truthy (folded [PN (PAction (S_ "if")) (Some (truthy (pn_value n'))) [PN (PAction (S_ "match:equality")) (Some (NVal (NBool true)))
       [PN (PValue (NString (ct_show (expected_type w x e)))) (Some (NVal (NString (ct_show (expected_type w x e))))) [];
       PN (PResolve (known_path w "$.content-type")) (Some (NVal type_value)) []; PN (PValue NNull) (Some (NVal NNull)) []; error_arg]; n']] NOk) = truthy (pn_value n')).
    { unfold folded, truthy. cbn [fold_left pn_result and_r is_truthy truthy_v]. reflexivity. }
    rewrite <- E at 1. apply (ev_container w x ee actual [] (S_ "body") _ _); [constructor; [exact HI | constructor] | repeat constructor].
  - split; reflexivity.
Qed.
Lemma json_tee r j P : evals [] (action "json:parse" [resolve_node (known_path w "$.body")]) [] (PN (PAction (S_ "json:parse")) (Some (NVal r)) [PN (PResolve (known_path w "$.body")) (Some (NVal match req_body actual with BPresent b _ _ => NBytes b | _ => NNull end)) []]) ->
  judges w x ee actual [Some (NVal r)] (json_plan w c j path_root) P ->
  exists n' k, evals [] (action "tee" [action "json:parse" [resolve_node (known_path w "$.body")]; container (path_expr path_root) (json_plan w c j path_root)]) [] n' /\
    is_splat n' = false /\ is_container n' = false /\ pn_type k = PContainer (path_expr path_root) /\ In k (pn_children n') /\
    ((P /\ is_truthy (pn_value n') = true) \/ (~ P /\ is_truthy (pn_value n') = false /\ bad k)).
Proof.
  intros Hp Hj. pose proof (judges_container w x ee actual _ (path_expr path_root) _ P Hj) as HC. 
  assert (HS : no_splat (json_plan w c j path_root)) by (apply (json_no_splat w c Hrules Hbest Hallow)).
  destruct (HC HS) as [l' [H1 [H2 H3]]]. inversion H1 as [|? k ? ? Hk Hnil]; subst. inversion Hnil; subst. inversion H2; subst.
  exists (PN (PAction (S_ "tee")) (Some (truthy (folded [k] NOk))) [PN (PAction (S_ "json:parse")) (Some (NVal r)) [PN (PResolve (known_path w "$.body")) (Some (NVal match req_body actual with BPresent b _ _ => NBytes b | _ => NNull end)) []]; k]), k.
  split; [|split; [reflexivity|split; [reflexivity|split; [assumption|split; [right; now left|]]]]].
  - apply (ev_tee w x ee actual [] _ _ _ [k] Hp); [reflexivity|]. exact H1.
  - destruct H3 as [[HP Ho]|[HP Hb]]; [left | right]; (split; [exact HP|]).
    + apply Forall_inv in Ho. cbn [pn_value pn_result]. unfold truthy. cbn [is_truthy truthy_v]. apply fine_truthy. apply folded_fine; [|apply fine_ok].
      intros m r' [<-|[]] Hr. now apply (proj1 Ho).
    + apply Exists_cons in Hb as [Hb|Hb]; [|inversion Hb]. split; [|exact Hb]. destruct Hb as [[r' [Hr Hs']] _]. cbn [pn_value pn_result]. unfold truthy. cbn [is_truthy truthy_v].
      apply stuck_not. apply (folded_stuck_in [k] k r'); [now left | exact Hr | exact Hs'].
Qed.
Lemma body_part e : req_body e <> BMissing -> body_fits (expected_type w x e) (json_of_bytes x) (fun v => utf8 (json_show w v)) (req_body e) (req_body actual) -> to_lower w [] = [] ->
  exists n st' n', body_plan w x ee e c = Ok n /\ evals [] n st' n' /\ pn_children n <> [] /\ pn_type n' = PContainer (S_ "body") /\
    (v2_body_matched (body_read w n') = true <-> body_accepts (expected_type w x e) (types_agree e) (json_of_bytes x) (utf8_lossy ee) (req_body e) (req_body actual)).
Proof.
  intros Hm Hf Hlow.
  pose proof (ev_resolve w x ee actual [] _ _ resolve_body) as Hb.
  assert (HE : exists n st' n', Ok (container (S_ "body") [action "expect:empty" [resolve_node (known_path w "$.body")]]) = Ok (E := str) n /\ evals [] n st' n' /\ pn_children n <> [] /\ pn_type n' = PContainer (S_ "body") /\
    (v2_body_matched (body_read w n') = true <-> no_body (req_body actual))).
  { destruct (ev_args w x ee actual [] 1 1 [resolve_node (known_path w "$.body")] [] _ ltac:(constructor; [exact Hb | constructor]) eq_refl ltac:(cbn; lia)) as [k Hk]. cbn [app] in Hk.
    destruct (value_is_empty (match req_body actual with BPresent b _ _ => NBytes b | _ => NNull end)) as [b|] eqn:Ev.
    - assert (Hb1 : b = true) by (destruct (req_body actual) as [| | |[|y bs] ? ?]; cbn in Ev; congruence). subst b.
      eexists _, [], _. split; [reflexivity|]. split; [|split; [discriminate|split; [|]]].
      + apply ev_container; [constructor; [|constructor]|].
        * apply ev_node. exists k. intros f Hf'.
          change (walk_node w x ee actual (walk w x ee actual f) f [] (action "expect:empty" [resolve_node (known_path w "$.body")])) with
            (expect_empty w ee (walk w x ee actual f) (PAction (S_ "expect:empty")) [] [resolve_node (known_path w "$.body")]).
          unfold expect_empty. rewrite Hk by assumption. cbn [catch_]. cbn [pn_value pn_result value_or_null]. rewrite Ev. reflexivity.
        * repeat constructor.
      + reflexivity.
      + split; [|reflexivity]. intros _. destruct (req_body actual) as [| | |[|y bs] ? ?]; try exact I. discriminate Ev.
    - eexists _, [], _. split; [reflexivity|]. split; [|split; [discriminate|split; [|]]].
      + apply ev_container; [constructor; [|constructor]|].
        * apply ev_node. exists k. intros f Hf'.
          change (walk_node w x ee actual (walk w x ee actual f) f [] (action "expect:empty" [resolve_node (known_path w "$.body")])) with
            (expect_empty w ee (walk w x ee actual f) (PAction (S_ "expect:empty")) [] [resolve_node (known_path w "$.body")]).
          unfold expect_empty. rewrite Hk by assumption. cbn [catch_]. cbn [pn_value pn_result value_or_null]. rewrite Ev. cbn [custom_error]. reflexivity.
        * repeat constructor.
      + reflexivity.
      + rewrite (read_error w _ _ _ (S_ "Expected to be empty")); [|reflexivity|reflexivity|discriminate|discriminate].
        split; [discriminate|]. destruct (req_body actual) as [| | |[|y bs] ? ?]; try discriminate Ev. intros []. }
  unfold body_plan, body_fits in *. destruct (req_body e) as [| | |b ct h] eqn:Eb; [congruence | exact HE | exact HE |]. clear HE Hm.
  (* the plan of the content *)
  assert (HN : exists n, (if is_json (expected_type w x e) then json_body_plan w x c b else if is_xml (expected_type w x e) then Err (S_ "XML bodies are not modelled") else Ok (text_body_plan w ee b)) = Ok n /\ quiet n).
  { destruct Hf as [Hj Hx]. destruct (is_json (expected_type w x e)).
    - destruct (Hj eq_refl) as [j [Ej _]]. unfold json_body_plan. rewrite Ej. eexists. split; [reflexivity|]. apply quiet_node. constructor; [reflexivity|]. constructor; [|constructor]. apply quiet_node, quiet_json.
    - rewrite (Hx eq_refl). eexists. split; reflexivity. }
  destruct HN as [n [En Qn]]. rewrite En. cbn [bind].
  assert (Hdec : types_agree e \/ ~ types_agree e).
  { rewrite <- types_checked. destruct (value_matches _ _ _ _ _); [now left | right; discriminate]. }
  exists (container (S_ "body") [action "if" [type_check w x e; n]]). destruct Hdec as [Ht|Ht].
  2:{ destruct (ev_type_other e Ht) as [ch [HT Hcont]].
      pose proof (ev_if_false2 w x ee actual [] _ _ n _ HT eq_refl) as HI.
      pose proof (ev_container_last [] (S_ "body") [] [] _ _ _ (evs_nil _ _ _ _ _) (Forall_nil _) HI eq_refl) as HB. cbn [app] in HB.
      eexists _, _. split; [reflexivity|]. split; [exact HB|]. split; [discriminate|]. split; [reflexivity|].
      split; [intros _ Ha; contradiction|]. intros _. apply read_silent.
      - reflexivity.
      - now rewrite Hlow.
      - intros lc Hin. cbn [containers flat_map pn_type app] in Hin. rewrite app_nil_r in Hin. cbn [containers] in Hcont. rewrite Hcont in Hin. cbn [app] in Hin.
        assert (Hq : quiet (snd lc)).
        { apply (quiet_containers (PN PEmpty None [n])); [constructor; [exact Qn | constructor]|]. cbn [containers flat_map]. exact Hin. }
        apply errors_all_none. unfold quiet, node_errors in Hq. now apply app_eq_nil in Hq as [_ Hq].
      - reflexivity.
      - intros e' E'. discriminate E'. }
  exists [].
  assert (Hread : forall n', evals [] n [] n' -> is_splat n' = false -> forall P : Prop,
     ((P /\ is_truthy (pn_value n') = true) \/ (~ P /\ is_truthy (pn_value n') = false /\ is_container n' = false /\ ((exists m, own_error n' = [m] /\ m <> []) \/ exists k, In k (pn_children n') /\ is_container k = true /\ bad k))) ->
     exists n'', evals [] (container (S_ "body") [action "if" [type_check w x e; n]]) [] n'' /\ pn_type n'' = PContainer (S_ "body") /\ (v2_body_matched (body_read w n'') = true <-> P)).
  { intros n' Hn' Hs P HP. destruct (ev_if_body e n n' Ht Hn' Hs) as [m [HB [Qm Cm]]]. eexists. split; [exact HB|]. split; [reflexivity|].
    destruct HP as [[HP Htr]|[HP [Htr [Hnc HL]]]].
    - split; [intros _; exact HP|]. intros _. apply read_okay. unfold truthy. cbn [pn_value pn_result is_truthy truthy_v]. exact Htr.
    - split; [|intro; contradiction]. intro Hacc. exfalso. revert Hacc. apply not_true_iff_false. destruct HL as [[msg [Ho Hmsg]]|[k [Hk [Ck [_ Hl]]]]].
      + apply (read_error w _ _ _ msg); [unfold truthy; cbn [pn_value pn_result is_truthy truthy_v]; exact Htr | | exact Hmsg | discriminate].
        unfold node_error. cbn [pn_result truthy]. cbn [errors_below flat_map app]. unfold is_container at 1. cbn [pn_type negb orb].
        replace (own_error (PN (PAction (S_ "if")) (Some (truthy (pn_value n'))) [m; n'])) with (@nil str) by reflexivity.
        cbn [errors_below flat_map app]. rewrite Cm, Hnc. cbn [negb orb].
        assert (Em : own_error m = [] /\ errors_below false m = []).
        { pose proof Qm as Qm'. apply quiet_children in Qm as [Q1 Q2]. split; [exact Q1 | now apply quiet_errors_below]. }
        destruct Em as [-> ->]. rewrite Ho. reflexivity.
      + assert (HK : exists lc, In lc (containers n') /\ errors_below false (snd lc) <> []).
        { unfold is_container in Ck. destruct (pn_type k) as [|lb| | | | | | |] eqn:Tk; try discriminate Ck.
          destruct Hl as [[Hc _]|[He|[lc [L1 L2]]]].
          - unfold is_container in Hc. rewrite Tk in Hc. discriminate.
          - exists (lb, k). split; [now apply (containers_child n' k) | exact He].
          - exists lc. split; [now apply (containers_in n' k) | exact L2]. }
        destruct HK as [lc [L1 L2]]. apply (read_loud w _ _ _ lc); [unfold truthy; cbn [pn_value pn_result is_truthy truthy_v]; exact Htr | | exact L2].
        eapply containers_in; [now left|]. eapply containers_in; [right; now left | exact L1]. }
  assert (Hdone : forall P : Prop, (exists n'', evals [] (container (S_ "body") [action "if" [type_check w x e; n]]) [] n'' /\ pn_type n'' = PContainer (S_ "body") /\ (v2_body_matched (body_read w n'') = true <-> P)) ->
     (P <-> body_accepts (expected_type w x e) (types_agree e) (json_of_bytes x) (utf8_lossy ee) (BPresent b ct h) (req_body actual)) ->
     exists n', Ok (container (S_ "body") [action "if" [type_check w x e; n]]) = Ok (E := str) (container (S_ "body") [action "if" [type_check w x e; n]]) /\ evals [] (container (S_ "body") [action "if" [type_check w x e; n]]) [] n' /\ pn_children (container (S_ "body") [action "if" [type_check w x e; n]]) <> [] /\ pn_type n' = PContainer (S_ "body") /\
    (v2_body_matched (body_read w n') = true <-> body_accepts (expected_type w x e) (types_agree e) (json_of_bytes x) (utf8_lossy ee) (BPresent b ct h) (req_body actual))).
  { intros P [n'' [H1 [H2 H3]]] HP. exists n''. split; [reflexivity|]. split; [exact H1|]. split; [discriminate|]. split; [exact H2|]. now rewrite H3. }
  destruct Hf as [Hj Hx]. destruct (is_json (expected_type w x e)) eqn:EJ.
  - destruct (Hj eq_refl) as [j [Ej [Hsn [Hrd Hwf]]]]. unfold json_body_plan in En. rewrite Ej in En. injection En as <-.
    set (bv := match req_body actual with BPresent b0 _ _ => NBytes b0 | _ => NNull end) in *.
    pose proof (ev_one w x ee actual [] "json:parse" _ _ (fun a => parse_json_value x (pn_value a)) (fun _ _ => eq_refl) Hb) as HP. cbv beta in HP. cbn [pn_value pn_result] in HP.
    destruct (present_bytes (req_body actual)) as [b'|] eqn:Ea.
    + assert (Ebv : bv = NBytes b') by (unfold bv; destruct (req_body actual); try discriminate Ea; injection Ea as <-; reflexivity). rewrite Ebv in HP. cbn [parse_json_value as_value] in HP.
      destruct (json_of_bytes x b') as [u|] eqn:Eu.
      * assert (HJ : judges w x ee actual [Some (NVal (NJson u))] (json_plan w c j path_root) (json_accepts j u)).
        { apply (judges_json w x ee actual c Hrules Hbest Hallow u [] (Hwf b' u eq_refl Eu) j Hsn Hrd path_root [] u); [split; [reflexivity | constructor] | reflexivity]. }
        destruct (json_tee (NJson u) j (json_accepts j u)) as [n' [k [H1 [H2 [H2' [H3 [H4 H5]]]]]]]; [fold bv; rewrite Ebv; exact HP | exact HJ|].
        apply (Hdone (json_accepts j u)).
        -- apply (Hread n' H1 H2). destruct H5 as [H5|[H5 [H6 H7]]]; [now left|]. right. split; [exact H5|]. split; [exact H6|]. split; [exact H2'|right; exists k; split; [exact H4|]; split; [unfold is_container; now rewrite H3 | exact H7]].
        -- cbn [body_accepts]. rewrite EJ, Ea. split.
           ++ intros H _. split; [|discriminate]. intros _. exists b', j, u. repeat split; try assumption; reflexivity.
           ++ intro H. destruct (H Ht) as [H' _]. destruct (H' eq_refl) as [b1 [j1 [u1 [Q1 [Q2 [Q3 Q4]]]]]]. injection Q1 as <-. congruence.
      * apply (Hdone False).
        -- eapply (Hread _ (ev_tee_error w x ee actual [] _ _ _ _ HP eq_refl)); [reflexivity|]. right. split; [tauto|]. split; [reflexivity|]. split; [reflexivity|]. left. exists (S_ "json parse error"). split; [reflexivity | discriminate].
        -- cbn [body_accepts]. rewrite EJ, Ea. split; [tauto|]. intro H. destruct (H Ht) as [H' _]. destruct (H' eq_refl) as [b1 [j1 [u1 [Q1 [Q2 [Q3 Q4]]]]]]. injection Q1 as <-. congruence.
    + assert (Ebv : bv = NNull) by (unfold bv; destruct (req_body actual); (discriminate Ea || reflexivity)). rewrite Ebv in HP. cbn [parse_json_value as_value] in HP.
      destruct (json_tee NNull j False) as [n' [k [H1 [H2 [H2' [H3 [H4 H5]]]]]]]; [fold bv; rewrite Ebv; exact HP | apply judges_nothing; [assumption|assumption|assumption|discriminate | exact Hrd]|].
      apply (Hdone False).
      * apply (Hread n' H1 H2). destruct H5 as [H5|[H5 [H6 H7]]]; [now left|]. right. split; [exact H5|]. split; [exact H6|]. split; [exact H2'|right; exists k; split; [exact H4|]; split; [unfold is_container; now rewrite H3 | exact H7]].
      * cbn [body_accepts]. rewrite EJ, Ea. split; [tauto|]. intro H. destruct (H Ht) as [H' _]. destruct (H' eq_refl) as [b1 [j1 [u1 [Q1 _]]]]. discriminate Q1.
  - rewrite (Hx eq_refl) in En. injection En as <-.
    set (bv := match req_body actual with BPresent b0 _ _ => NBytes b0 | _ => NNull end) in *.
    pose proof (ev_one w x ee actual [] "convert:UTF8" _ _ (fun a => convert_utf8 ee (pn_value a)) (fun _ _ => eq_refl) Hb) as HP. cbv beta in HP. cbn [pn_value pn_result] in HP.
    set (t := match present_bytes (req_body actual) with Some bs' => utf8_lossy ee bs' | None => [] end).
    assert (Et : convert_utf8 ee (NVal bv) = NVal (NString t)) by (unfold bv, t; destruct (req_body actual); reflexivity). rewrite Et in HP.
    assert (HQ := ev_equality w x ee actual [] _ _ _ _ (NString (utf8_lossy ee b)) _ (ev_text w x ee actual [] (utf8_lossy ee b)) HP eq_refl eq_refl).
    apply (Hdone (utf8_lossy ee b = t)).
    + apply (Hread _ HQ eq_refl). cbn [value_matches str_matches]. destruct (str_eqb_spec (utf8_lossy ee b) t) as [E|E]; [left; split; [exact E | reflexivity]|].
      right. split; [exact E|]. split; [reflexivity|]. split; [reflexivity|]. left. exists (S_ "Expected"). split; [reflexivity | discriminate].
    + cbn [body_accepts]. rewrite EJ. fold t. split; [intros H _; split; [discriminate | intros _; exact H] | intro H; destruct (H Ht) as [_ H']; exact (H' eq_refl)].
Qed.
End NoRules.
End BodyPart.
