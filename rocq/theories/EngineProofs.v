(** What the nodes of a plan evaluate to. *)
From Coq Require Import Ascii String List Arith NArith ZArith Lia Bool.
From Verif Require Import Base PathExp Json Text MatchingRules Matchers JsonCompare Headers Query ContentType Http Base64 Engine EnginePlan.
Import ListNotations.
Open Scope nat_scope.

(** ** Results *)
(** A result that ends as a failure whatever it is combined with, and one that is no failure. *)
Definition stuck (r : nresult) : Prop := r = NVal (NBool false) \/ exists e, r = NErr e.
Definition fine (r : nresult) : Prop := r = NOk \/ exists v, r = NVal v /\ truthy_v v = true.
Lemma stuck_not r : stuck r -> is_truthy r = false.
Proof. intros [->|[e ->]]; reflexivity. Qed.
Lemma fine_truthy r : fine r -> is_truthy r = true.
Proof. intros [->|[v [-> H]]]; [reflexivity | exact H]. Qed.
Lemma and_stuck_l a o : stuck a -> stuck (and_r a o).
Proof.
  intros [->|[e ->]]; destruct o as [[|v|e']|]; cbn; unfold stuck; eauto.
Qed.
Lemma and_stuck_r a r : stuck r -> stuck (and_r a (Some r)).
Proof.
  intros [->|[e ->]]; destruct a as [|v|e']; cbn; unfold stuck; eauto.
  destruct v; cbn; rewrite ?andb_false_r; eauto.
Qed.
Lemma and_fine a o : fine a -> (forall r, o = Some r -> fine r) -> fine (and_r a o).
Proof.
  intros Ha Ho. destruct o as [r|]; [|exact Ha]. specialize (Ho r eq_refl).
  destruct Ha as [->|[v [-> Hv]]]; [exact Ho|].
  destruct Ho as [->|[v' [-> Hv']]]; [right; exists v; split; [reflexivity | exact Hv]|].
  right. exists (and_v v v'). split; [reflexivity|]. destruct v; try discriminate Hv; cbn in *; now rewrite ?Hv, ?Hv'.
Qed.
Definition folded (l : list pnode) (r : nresult) : nresult := fold_left (fun acc c => and_r acc (pn_result c)) l r.
Lemma folded_stuck l : forall r, stuck r -> stuck (folded l r).
Proof. induction l as [|c l IH]; intros r H; [exact H|]. cbn. apply IH. now apply and_stuck_l. Qed.
Lemma folded_stuck_in l c r0 : In c l -> pn_result c = Some r0 -> stuck r0 -> forall r, stuck (folded l r).
Proof.
  intros Hin Hr Hs. induction l as [|c' l IH]; [destruct Hin|]. intro r. cbn. destruct Hin as [->|Hin].
  - apply folded_stuck. rewrite Hr. now apply and_stuck_r.
  - now apply IH.
Qed.
Lemma folded_fine l : (forall c r, In c l -> pn_result c = Some r -> fine r) -> forall r, fine r -> fine (folded l r).
Proof.
  intro H. induction l as [|c l IH]; intros r Hr; [exact Hr|]. cbn. apply IH.
  - intros c' r' Hin. apply H. now right.
  - apply and_fine; [exact Hr|]. intros r' E. apply (H c r' (or_introl eq_refl) E).
Qed.

(** ** What a node reports *)
Definition quiet (n : pnode) : Prop := node_errors n = [].
Definition loud_below (n : pnode) : Prop :=
  errors_below false n <> [] \/ exists lc, In lc (containers n) /\ errors_below false (snd lc) <> [].
Definition loud (n : pnode) : Prop := (is_container n = false /\ own_error n <> []) \/ loud_below n.
Lemma errors_below_in all n c : In c (pn_children n) -> (all = true \/ is_container c = false) ->
  own_error c ++ errors_below all c <> [] -> errors_below all n <> [].
Proof.
  destruct n as [t r ch]. cbn [pn_children errors_below]. intros Hin Hc He E.
  apply He. clear He. induction ch as [|c' ch IH]; [destruct Hin|]. cbn [flat_map] in E. apply app_eq_nil in E as [E1 E2].
  destruct Hin as [->|Hin]; [|now apply IH]. destruct Hc as [->|Hc]; [exact E1|]. rewrite Hc, orb_true_r in E1. exact E1.
Qed.
Lemma containers_in n c lc : In c (pn_children n) -> In lc (containers c) -> In lc (containers n).
Proof.
  destruct n as [t r ch]. cbn [pn_children containers]. intros Hin Hl. apply in_flat_map. exists c. split; [exact Hin|]. apply in_or_app. now right.
Qed.
Lemma containers_child n c l : In c (pn_children n) -> pn_type c = PContainer l -> In (l, c) (containers n).
Proof.
  destruct n as [t r ch]. cbn [pn_children containers]. intros Hin Hl. apply in_flat_map. exists c. split; [exact Hin|]. rewrite Hl. now left.
Qed.
Lemma loud_up n c : In c (pn_children n) -> loud c -> loud_below n.
Proof.
  intros Hin [[Hc Ho]|[He|[lc [H1 H2]]]].
  - left. apply (errors_below_in false n c Hin (or_intror Hc)). intro E. apply app_eq_nil in E as [E _]. contradiction.
  - destruct (pn_type c) as [|l| | | | | | |] eqn:T;
      try (left; apply (errors_below_in false n c Hin); [right; unfold is_container; now rewrite T |
           intro E; apply app_eq_nil in E as [_ E]; contradiction]).
    right. exists (l, c). split; [now apply containers_child | exact He].
  - right. exists lc. split; [eapply containers_in; eassumption | exact H2].
Qed.
Lemma quiet_children n : quiet n <-> own_error n = [] /\ Forall quiet (pn_children n).
Proof.
  unfold quiet, node_errors. destruct n as [t r ch]. cbn [errors_below pn_children]. split.
  - intro E. apply app_eq_nil in E as [E1 E2]. split; [exact E1|]. clear E1. induction ch as [|c ch IH]; constructor.
    + cbn in E2. now apply app_eq_nil in E2 as [E2 _].
    + cbn in E2. apply app_eq_nil in E2 as [_ E2]. now apply IH.
  - intros [-> H]. induction H as [|c ch Hc _ IH]; [reflexivity|]. cbn in *. now rewrite Hc.
Qed.
Lemma errors_all_none : forall n, errors_below true n = [] -> errors_below false n = [].
Proof.
  fix IH 1. intros [t r ch]. cbn [errors_below]. induction ch as [|c ch IHc]; [reflexivity|]. cbn [flat_map].
  intro E. apply app_eq_nil in E as [E1 E2]. cbn [orb] in E1. apply app_eq_nil in E1 as [E0 E1].
  rewrite (IHc E2), app_nil_r. destruct (false || negb (is_container c))%bool; [|reflexivity]. rewrite E0. cbn. now apply IH.
Qed.
Lemma quiet_containers : forall n, Forall quiet (pn_children n) -> forall lc, In lc (containers n) -> quiet (snd lc).
Proof.
  fix IH 1. intros [t r ch]. cbn [pn_children containers]. induction ch as [|c ch IHc]; intros H lc Hin; [destruct Hin|].
  cbn [flat_map] in Hin. pose proof (Forall_inv H) as Hc. apply in_app_or in Hin as [Hin|Hin].
  - apply in_app_or in Hin as [Hin|Hin].
    + destruct (pn_type c); cbn in Hin; try contradiction. destruct Hin as [<-|[]]; exact Hc.
    + apply (IH c); [|exact Hin]. now apply quiet_children in Hc.
  - apply IHc; [now apply Forall_inv_tail in H | exact Hin].
Qed.
Lemma quiet_not_loud n : quiet n -> ~ loud n.
Proof.
  intro H. pose proof (proj1 (quiet_children n) H) as [Ho Hch]. intros [[_ E]|[E|[lc [H1 H2]]]].
  - contradiction.
  - apply E. apply errors_all_none. unfold quiet, node_errors in H. now apply app_eq_nil in H as [_ H].
  - pose proof (quiet_containers n Hch lc H1) as Hq. apply H2. apply errors_all_none. unfold quiet, node_errors in Hq. now apply app_eq_nil in Hq as [_ Hq].
Qed.
Lemma loud_errors n : loud n -> node_errors n <> [].
Proof. intros Hl Hq. exact (quiet_not_loud n Hq Hl). Qed.

(** A node that went well, and one that failed visibly. *)
Definition okay (n : pnode) : Prop := (forall r, pn_result n = Some r -> fine r) /\ quiet n.
Definition bad (n : pnode) : Prop := (exists r, pn_result n = Some r /\ stuck r) /\ loud n.

Section Eval.
Variable w : world.
Variable x : externals.
Variable ee : engine_texts.
Variable actual : request.
Notation walk := (walk w x ee actual).
Notation node f := (walk_node w x ee actual (walk f) f).

Definition evals (st : stack) (n : pnode) (st' : stack) (n' : pnode) : Prop :=
  exists N, forall f, N <= f -> walk f st n = Runs st' n'.
Lemma ev_node st n st' n' : (exists N, forall f, N <= f -> node f st n = Runs st' n') -> evals st n st' n'.
Proof. intros [k H]. exists (S k). intros [|f] Hf; [lia|]. cbn. apply H. lia. Qed.
Lemma ev_const st n st' n' : (forall f, node f st n = Runs st' n') -> evals st n st' n'.
Proof. intro H. apply ev_node. exists 0. intros. apply H. Qed.

Lemma ev_value st v v' : read_value x v = inl v' -> evals st (value_node v) st (PN (PValue v) (Some (NVal v')) []).
Proof. intro H. apply ev_const. intro f. cbn. now rewrite H. Qed.
Lemma ev_text st s : evals st (value_node (NString s)) st (PN (PValue (NString s)) (Some (NVal (NString s))) []).
Proof. now apply ev_value. Qed.
Lemma ev_null st : evals st (value_node NNull) st (PN (PValue NNull) (Some (NVal NNull)) []).
Proof. now apply ev_value. Qed.
Lemma ev_resolve st p v : resolve w x actual p = Ok v -> evals st (resolve_node p) st (PN (PResolve p) (Some (NVal v)) []).
Proof. intro H. apply ev_const. intro f. cbn. now rewrite H. Qed.
Lemma ev_current st p v : resolve_stack st p = inl v -> evals st (current_node p) st (PN (PResolveCurrent p) (Some (NVal v)) []).
Proof. intro H. apply ev_const. intro f. cbn. now rewrite H. Qed.
Lemma ev_annotation st s : evals st (annotation s) st (annotation s).
Proof. now apply ev_const. Qed.

(** Walking a list of nodes in order, the stack being the same after each. *)
Inductive evs (st : stack) : list pnode -> list pnode -> Prop :=
| evs_nil : evs st [] []
| evs_cons c c' l l' : evals st c st c' -> evs st l l' -> evs st (c :: l) (c' :: l').
Lemma evs_app st l1 l1' l2 l2' : evs st l1 l1' -> evs st l2 l2' -> evs st (l1 ++ l2) (l1' ++ l2').
Proof. induction 1; intro H2; [exact H2|]. cbn. constructor; auto. Qed.
Lemma evs_length st l l' : evs st l l' -> length l' = length l.
Proof. induction 1; cbn; congruence. Qed.
Lemma evs_all st l l' : evs st l l' -> exists N, forall f, N <= f -> walk_all (walk f) st l = Runs st l'.
Proof.
  induction 1 as [|c c' l l' [k1 H1] _ [k2 H2]]; [exists 0; reflexivity|].
  exists (k1 + k2). intros f Hf. cbn [walk_all]. rewrite H1 by lia. cbn. rewrite H2 by lia. reflexivity.
Qed.
Definition no_splat (l : list pnode) : Prop := Forall (fun c => is_splat c = false) l.
Lemma evs_container st l l' : evs st l l' -> no_splat l' ->
  exists N, forall f g, N <= f -> N <= g -> forall status done,
    queue_container (walk f) g st l status done = Runs st (folded l' status, done ++ l').
Proof.
  induction 1 as [|c c' l l' [k1 H1] _ IH]; intro Hs.
  - exists 0. intros f [|g] _ _ status done; cbn; now rewrite app_nil_r.
  - destruct (IH (Forall_inv_tail Hs)) as [k2 H2]. exists (S (k1 + k2)). intros f g Hf Hg status done.
    destruct g as [|g]; [lia|]. cbn [queue_container]. rewrite H1 by lia. cbn [then_].
    rewrite (Forall_inv Hs), H2 by lia. cbn [folded fold_left]. now rewrite <- app_assoc.
Qed.
Lemma ev_container st lb ch ch' : evs st ch ch' -> no_splat ch' ->
  evals st (container lb ch) st (PN (PContainer lb) (Some (truthy (folded ch' NOk))) ch').
Proof.
  intros H Hs. destruct (evs_container st ch ch' H Hs) as [k Hk]. apply ev_node. exists k. intros f Hf. cbn.
  rewrite Hk by assumption. reflexivity.
Qed.

(** Arguments. *)
Lemma ev_args st n o args opt args' : evs st args args' -> length args = n -> length opt <= o ->
  exists N, forall f, N <= f -> validate_args (walk f) n o st (args ++ opt) = Runs st (args', opt).
Proof.
  intros H Hn Ho. destruct (evs_all _ _ _ H) as [k Hk]. exists k. intros f Hf. unfold validate_args.
  rewrite app_length, Hn. replace (Nat.ltb (n + length opt) n) with false by (symmetry; apply Nat.ltb_ge; lia).
  replace (Nat.ltb (n + o) (n + length opt)) with false by (symmetry; apply Nat.ltb_ge; lia). cbn [orb].
  rewrite <- Hn, firstn_app, Nat.sub_diag, firstn_all, skipn_app, Nat.sub_diag, skipn_all. cbn. rewrite app_nil_r, Hk by assumption.
  reflexivity.
Qed.

(** A comparison with three arguments whose values are known. *)
Definition value_is (n : pnode) (v : nvalue) : Prop := pn_result n = Some (NVal v).
Lemma value_is_value n v : value_is n v -> pn_value n = NVal v.
Proof. unfold value_is, pn_value. now intros ->. Qed.
Lemma action_match f a st r ch m : a = S_ "match:" ++ m -> execute_action w x ee (walk f) f a st r ch = execute_match w ee (walk f) m (PAction a) st ch.
Proof. intros ->. reflexivity. Qed.
Lemma ev_match st m a1 a2 a3 b1 b2 b3 v1 v2 v3 r :
  evals st a1 st b1 -> evals st a2 st b2 -> evals st a3 st b3 ->
  value_is b1 v1 -> value_is b2 v2 -> value_is b3 v3 ->
  create_rule w m (dflt (v_json v3) JNull) = Ok r ->
  evals st (PN (PAction (S_ "match:" ++ m)) None [a1; a2; a3]) st
    (PN (PAction (S_ "match:" ++ m)) (Some (if value_matches w ee v1 v2 r then NVal (NBool true) else NErr (S_ "Expected"))) [b1; b2; b3]).
Proof.
  intros H1 H2 H3 E1 E2 E3 Hr.
  destruct (ev_args st 3 1 [a1; a2; a3] [] [b1; b2; b3]) as [k Hk].
  { repeat constructor; assumption. } { reflexivity. } { cbn; lia. }
  apply ev_node. exists k. intros f Hf. unfold walk_node. rewrite (action_match f _ st None _ m eq_refl).
  unfold execute_match. rewrite app_nil_r in Hk. rewrite Hk by assumption. cbn [catch_].
  rewrite (value_is_value _ _ E1), (value_is_value _ _ E2), (value_is_value _ _ E3). cbn [value_or_error]. rewrite Hr.
  destruct (value_matches w ee v1 v2 r); reflexivity.
Qed.
Lemma equality_created : create_rule w (S_ "equality") JNull = Ok REquality.
Proof. reflexivity. Qed.
Lemma ev_equality st a1 a2 b1 b2 v1 v2 :
  evals st a1 st b1 -> evals st a2 st b2 -> value_is b1 v1 -> value_is b2 v2 ->
  evals st (equality_node a1 a2) st
    (PN (PAction (S_ "match:equality"))
        (Some (if value_matches w ee v1 v2 REquality then NVal (NBool true) else NErr (S_ "Expected")))
        [b1; b2; PN (PValue NNull) (Some (NVal NNull)) []]).
Proof.
  intros H1 H2 E1 E2. apply (ev_match st (S_ "equality") a1 a2 (value_node NNull) b1 b2 _ v1 v2 NNull); auto.
  - apply ev_null.
  - reflexivity.
Qed.

(** Actions on one evaluated child. *)
Lemma ev_values_one st (a : string) c c' v f0 :
  (forall f ch, execute_action w x ee (walk f) f (S_ a) st None ch = with_values (walk f) f (PAction (S_ a)) st ch f0) ->
  pn_result c = None -> evals st c st c' -> is_splat c' = false -> value_is c' v ->
  evals st (action a [c]) st (PN (PAction (S_ a)) (Some (f0 [v])) [c']).
Proof.
  intros Ha Hn [k Hk] Hs Hv. apply ev_node. exists (S (S k)). intros f Hf. unfold walk_node, action. rewrite Ha. unfold with_values.
  destruct f as [|[|f]]; [lia|lia|]. cbn [evaluate]. rewrite Hn, Hk by lia. cbn [catch_]. rewrite Hs, (value_is_value _ _ Hv). reflexivity.
Qed.
Lemma ev_one st (a : string) c c' f0 :
  (forall f ch, execute_action w x ee (walk f) f (S_ a) st None ch = with_one (walk f) (PAction (S_ a)) st ch f0) ->
  evals st c st c' ->
  evals st (action a [c]) st (PN (PAction (S_ a)) (Some (f0 c')) [c']).
Proof.
  intros Ha Hc. destruct (ev_args st 1 0 [c] [] [c']) as [k Hk]; [repeat constructor; assumption|reflexivity|cbn; lia|].
  apply ev_node. exists k. intros f Hf. unfold walk_node, action. rewrite Ha. unfold with_one.
  change ([c] ++ []) with [c] in Hk. rewrite Hk by assumption. reflexivity.
Qed.
Lemma ev_args_action st (a : string) n ch ch' f0 :
  (forall f ch, execute_action w x ee (walk f) f (S_ a) st None ch = with_args (walk f) n (PAction (S_ a)) st ch f0) ->
  length ch = n -> evs st ch ch' ->
  evals st (action a ch) st (PN (PAction (S_ a)) (Some (f0 (map pn_value ch'))) ch').
Proof.
  intros Ha Hl Hc. destruct (ev_args st n 0 ch [] ch') as [k Hk]; [assumption|assumption|cbn; lia|].
  apply ev_node. exists k. intros f Hf. unfold walk_node, action. rewrite Ha. unfold with_args.
  rewrite app_nil_r in Hk. rewrite Hk by assumption. reflexivity.
Qed.

(** [if]. *)
Lemma ev_if_true st c yes more c' yes' : evals st c st c' -> is_truthy (pn_value c') = true -> evals st yes st yes' ->
  evals st (action "if" (c :: yes :: more)) st (PN (PAction (S_ "if")) (Some (truthy (pn_value yes'))) (c' :: yes' :: more)).
Proof.
  intros [k1 H1] Ht [k2 H2]. apply ev_node. exists (k1 + k2). intros f Hf. unfold walk_node, action, execute_action.
  change (execute_if (walk f) (PAction (S_ "if")) st (c :: yes :: more) = Runs st (PN (PAction (S_ "if")) (Some (truthy (pn_value yes'))) (c' :: yes' :: more))).
  unfold execute_if. rewrite H1 by lia. cbn [catch_]. rewrite Ht. cbn [negb]. rewrite H2 by lia. reflexivity.
Qed.
Lemma ev_if_false2 st st1 c yes c' : evals st c st1 c' -> is_truthy (pn_value c') = false ->
  evals st (action "if" [c; yes]) st1 (PN (PAction (S_ "if")) (Some (NVal (NBool false))) [c'; yes]).
Proof.
  intros [k1 H1] Ht. apply ev_node. exists k1. intros f Hf.
  change (execute_if (walk f) (PAction (S_ "if")) st [c; yes] = Runs st1 (PN (PAction (S_ "if")) (Some (NVal (NBool false))) [c'; yes])).
  unfold execute_if. rewrite H1 by lia. cbn [catch_]. rewrite Ht. reflexivity.
Qed.
Lemma ev_if_false3 st c yes no more c' no' : evals st c st c' -> is_truthy (pn_value c') = false -> evals st no st no' ->
  evals st (action "if" (c :: yes :: no :: more)) st (PN (PAction (S_ "if")) (pn_result no') (c' :: yes :: no' :: more)).
Proof.
  intros [k1 H1] Ht [k2 H2]. apply ev_node. exists (k1 + k2). intros f Hf.
  change (execute_if (walk f) (PAction (S_ "if")) st (c :: yes :: no :: more) = Runs st (PN (PAction (S_ "if")) (pn_result no') (c' :: yes :: no' :: more))).
  unfold execute_if. rewrite H1 by lia. cbn [catch_]. rewrite Ht. cbn [negb]. rewrite H2 by lia. reflexivity.
Qed.
(** [tee]. *)
Lemma ev_and st l l' : evs st l l' -> exists N, forall f, N <= f -> forall r done,
  walk_and (walk f) st l r done = Runs st (folded l' r, done ++ l').
Proof.
  induction 1 as [|c c' l l' [k1 H1] _ [k2 H2]].
  - exists 0. intros. cbn. now rewrite app_nil_r.
  - exists (k1 + k2). intros f Hf r done. cbn [walk_and]. rewrite H1 by lia. cbn [catch_]. rewrite H2 by lia. cbn [folded fold_left].
    now rewrite <- app_assoc.
Qed.
Lemma ev_tee st c rest c' rest' : evals st c st c' -> is_err (pn_value c') = false -> evs (pn_result c' :: st) rest rest' ->
  evals st (action "tee" (c :: rest)) st (PN (PAction (S_ "tee")) (Some (truthy (folded rest' NOk))) (c' :: rest')).
Proof.
  intros [k1 H1] He Hr. destruct (ev_and _ _ _ Hr) as [k2 H2]. apply ev_node. exists (k1 + k2). intros f Hf.
  change (execute_tee (walk f) (PAction (S_ "tee")) st (c :: rest) = Runs st (PN (PAction (S_ "tee")) (Some (truthy (folded rest' NOk))) (c' :: rest'))).
  unfold execute_tee. rewrite H1 by lia. cbn [catch_]. rewrite He, H2 by lia. reflexivity.
Qed.
Lemma ev_tee_error st c rest c' e : evals st c st c' -> pn_result c' = Some (NErr e) ->
  evals st (action "tee" (c :: rest)) st (PN (PAction (S_ "tee")) (Some (NErr e)) (c' :: rest)).
Proof.
  intros [k1 H1] He. apply ev_node. exists k1. intros f Hf.
  change (execute_tee (walk f) (PAction (S_ "tee")) st (c :: rest) = Runs st (PN (PAction (S_ "tee")) (Some (NErr e)) (c' :: rest))).
  unfold execute_tee. rewrite H1 by lia. cbn [catch_]. unfold pn_value. rewrite He. reflexivity.
Qed.

(** The checks of entries: the message of a failure is computed from what is missing. *)
Lemma ev_join_entries st m diff : evals (Some (NVal (NSlist diff)) :: st) (join_entries m) (Some (NVal (NSlist diff)) :: st)
  (PN (PAction (S_ "join")) (Some (NVal (NString (S_ m ++ join_with (S_ ", ") diff))))
     [PN (PValue (NString (S_ m))) (Some (NVal (NString (S_ m)))) [];
      PN (PAction (S_ "join-with")) (Some (NVal (NString (join_with (S_ ", ") diff))))
        [PN (PValue (NString (S_ ", "))) (Some (NVal (NString (S_ ", ")))) [];
         PN PSplat (Some NOk) (map (fun s => PN (PAction (S_ "apply")) (Some (NVal (NString s))) []) diff)]]).
Proof.
  set (st0 := Some (NVal (NSlist diff)) :: st).
  assert (Hsplat : evals st0 (splat_node [action "apply" []]) st0
     (PN PSplat (Some NOk) (map (fun s => PN (PAction (S_ "apply")) (Some (NVal (NString s))) []) diff))).
  { apply ev_node. exists 1. intros [|f] Hf; [lia|]. cbn [walk_node splat_node walk_all]. cbn [Engine.walk].
    change (walk_node w x ee actual (walk f) f st0 (action "apply" [])) with (Runs st0 (PN (PAction (S_ "apply")) (Some (NVal (NSlist diff))) [])).
    cbn. now rewrite app_nil_r. }
  assert (Hwith : evals st0 (action "join-with" [text_node ", "; splat_node [action "apply" []]]) st0
     (PN (PAction (S_ "join-with")) (Some (NVal (NString (join_with (S_ ", ") diff))))
        [PN (PValue (NString (S_ ", "))) (Some (NVal (NString (S_ ", ")))) [];
         PN PSplat (Some NOk) (map (fun s => PN (PAction (S_ "apply")) (Some (NVal (NString s))) []) diff)])).
  { destruct Hsplat as [k Hk]. apply ev_node. exists (5 + k + length diff). intros f Hf. unfold walk_node, action at 1.
    change (execute_action w x ee (walk f) f (S_ "join-with") st0 None [text_node ", "; splat_node [action "apply" []]])
      with (with_values (walk f) f (PAction (S_ "join-with")) st0 [text_node ", "; splat_node [action "apply" []]] (fun vs => NVal (NString (joined w ee true vs)))).
    unfold with_values.
    assert (HW : forall g, 3 + length diff <= g -> evaluate (walk f) g st0 [text_node ", "; splat_node [action "apply" []]] [] [] =
      Runs st0 (inl ([PN (PValue (NString (S_ ", "))) (Some (NVal (NString (S_ ", ")))) [];
         PN PSplat (Some NOk) (map (fun s => PN (PAction (S_ "apply")) (Some (NVal (NString s))) []) diff)],
         NString (S_ ", ") :: map NString diff))).
    { intros g Hg. destruct g as [|[|g]]; [lia|lia|]. cbn [evaluate].
      assert (HT : walk f st0 (text_node ", ") = Runs st0 (PN (PValue (NString (S_ ", "))) (Some (NVal (NString (S_ ", ")))) [])).
      { destruct f as [|f]; [lia|reflexivity]. }
      replace (pn_result (text_node ", ")) with (@None nresult) by reflexivity. rewrite HT.
      cbn [catch_ is_splat pn_type pn_value pn_result app].
      replace (pn_result (splat_node [action "apply" []])) with (@None nresult) by reflexivity.
      rewrite Hk by lia. cbn [catch_ is_splat pn_type pn_children app]. rewrite app_nil_r.
      assert (HL : forall l g done vs, length l <= g ->
        evaluate (walk f) g st0 (map (fun s => PN (PAction (S_ "apply")) (Some (NVal (NString s))) []) l) done vs =
        Runs st0 (inl (done, vs ++ map NString l))).
      { clear. induction l as [|s l IHl]; intros g done vs Hg; [destruct g; cbn; now rewrite app_nil_r|].
        destruct g as [|g]; [cbn in Hg; lia|]. cbn [map evaluate pn_result]. rewrite IHl by (cbn in Hg; lia). now rewrite <- app_assoc. }
      rewrite HL by lia. reflexivity. }
    rewrite HW by lia. cbn [then_]. unfold joined. cbn [map flat_map texts]. do 3 f_equal.
    assert (HT : flat_map (texts w ee) (map NString diff) = diff).
    { clear. induction diff as [|s l IHl]; [reflexivity|]. cbn. now rewrite IHl. }
    cbn [app]. now rewrite HT. }
  destruct Hwith as [k Hk]. apply ev_node. exists (4 + k). intros f Hf. unfold join_entries, walk_node, action at 1.
  change (execute_action w x ee (walk f) f (S_ "join") st0 None [text_node m; action "join-with" [text_node ", "; splat_node [action "apply" []]]])
    with (with_values (walk f) f (PAction (S_ "join")) st0 [text_node m; action "join-with" [text_node ", "; splat_node [action "apply" []]]] (fun vs => NVal (NString (joined w ee false vs)))).
  unfold with_values. destruct f as [|[|[|f]]]; [lia|lia|lia|]. cbn [evaluate].
  assert (HT : walk (S (S (S f))) st0 (text_node m) = Runs st0 (PN (PValue (NString (S_ m))) (Some (NVal (NString (S_ m)))) [])) by reflexivity.
  replace (pn_result (text_node m)) with (@None nresult) by reflexivity. rewrite HT.
  cbn [catch_ is_splat pn_type pn_value pn_result app].
  replace (pn_result (action "join-with" [text_node ", "; splat_node [action "apply" []]])) with (@None nresult) by reflexivity.
  rewrite Hk by lia. cbn [catch_ is_splat pn_type pn_value pn_result app then_]. unfold joined. cbn [flat_map texts app concat].
  now rewrite app_nil_r.
Qed.
End Eval.
