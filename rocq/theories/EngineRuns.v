(** Executing a plan always ends: for every plan tree, stack and actual request the walk gives
    one outcome from some bound on. *)
From Coq Require Import Ascii String List Arith NArith ZArith Lia Bool.
From Verif Require Import Base PathExp Json Text MatchingRules Matchers JsonCompare Headers Query ContentType Http Base64 Engine EnginePlan.
Import ListNotations.
Open Scope nat_scope.

Definition settled {A} (P : A -> Prop) (h : nat -> nat -> run A) : Prop :=
  exists N o, o <> Fuel /\ (forall st a, o = Runs st a -> P a) /\ forall f g, N <= f -> N <= g -> h f g = o.

Lemma s_runs {A} (P : A -> Prop) st a : P a -> settled P (fun _ _ => Runs st a).
Proof. intro H. exists 0, (Runs st a). split; [discriminate|]. split; [intros ? ? E; injection E as _ <-; exact H | reflexivity]. Qed.
Lemma s_fails {A} (P : A -> Prop) st m : settled P (fun _ _ => Fails st m).
Proof. exists 0, (Fails st m). split; [discriminate|]. split; [discriminate | reflexivity]. Qed.
Lemma s_panics {A} (P : A -> Prop) : settled P (fun _ _ => Panics).
Proof. exists 0, Panics. split; [discriminate|]. split; [discriminate | reflexivity]. Qed.
Lemma s_ext {A} (P : A -> Prop) h h' : (forall f g, h f g = h' f g) -> settled P h -> settled P h'.
Proof. intros E [n [o [H1 [H2 H3]]]]. exists n, o. split; [exact H1|]. split; [exact H2|]. intros. rewrite <- E. now apply H3. Qed.
Lemma s_weaken {A} (P Q : A -> Prop) h : (forall a, P a -> Q a) -> settled P h -> settled Q h.
Proof. intros E [n [o [H1 [H2 H3]]]]. exists n, o. split; [exact H1|]. split; [|exact H3]. intros st a Ho. apply E. eapply H2; exact Ho. Qed.
Lemma s_catch {A B} (P : A -> Prop) (Q : B -> Prop) h k q :
  settled P h -> (forall st a, P a -> settled Q (fun f g => k f g st a)) -> (forall st m, settled Q (fun f g => q f g st m)) ->
  settled Q (fun f g => catch_ (h f g) (k f g) (q f g)).
Proof.
  intros [n [o [H1 [H2 H3]]]] HK HQ.
  destruct o as [| |st m|st a].
  - congruence.
  - exists n, Panics. split; [discriminate|]. split; [discriminate|]. intros f g Hf Hg. rewrite H3 by assumption. reflexivity.
  - destruct (HQ st m) as [n' [o' [K1 [K2 K3]]]]. exists (n + n'), o'. split; [exact K1|]. split; [exact K2|].
    intros f g Hf Hg. rewrite H3 by lia. cbn. apply K3; lia.
  - destruct (HK st a (H2 st a eq_refl)) as [n' [o' [K1 [K2 K3]]]]. exists (n + n'), o'. split; [exact K1|]. split; [exact K2|].
    intros f g Hf Hg. rewrite H3 by lia. cbn. apply K3; lia.
Qed.
Lemma s_then {A B} (P : A -> Prop) (Q : B -> Prop) h k :
  settled P h -> (forall st a, P a -> settled Q (fun f g => k f g st a)) ->
  settled Q (fun f g => then_ (h f g) (k f g)).
Proof.
  intros H HK. apply (s_ext Q (fun f g => catch_ (h f g) (k f g) (fun st m => Fails st m))).
  - intros f g. destruct (h f g); reflexivity.
  - apply (s_catch P Q h k); auto. intros. apply s_fails.
Qed.
(** One more step of the bound. *)
Lemma s_step {A} (P : A -> Prop) h h' :
  (forall f g, h' f (S g) = h f g) -> settled P h -> settled P h'.
Proof.
  intros E [n [o [H1 [H2 H3]]]]. exists (S n), o. split; [exact H1|]. split; [exact H2|].
  intros f g Hf Hg. destruct g as [|g]; [lia|]. rewrite E. apply H3; lia.
Qed.
Lemma s_diag {A} (P : A -> Prop) h : settled P h -> settled P (fun f _ => h f f).
Proof. intros [n [o [H1 [H2 H3]]]]. exists n, o. split; [exact H1|]. split; [exact H2|]. intros. now apply H3. Qed.
Lemma s_lift {A} (P : A -> Prop) (h : nat -> run A) : settled P (fun f _ => h f) -> settled P (fun f _ => match f with O => Fuel | S f' => h f' end).
Proof.
  intros [n [o [H1 [H2 H3]]]]. exists (S n), o. split; [exact H1|]. split; [exact H2|].
  intros f g Hf Hg. destruct f as [|f]; [lia|]. apply (H3 f f); lia.
Qed.

(** The height of a tree. *)
Fixpoint depth (n : pnode) : nat := match n with PN _ _ ch => S (list_max (map depth ch)) end.
Definition low (d : nat) (n : pnode) : Prop := depth n <= d.
Lemma list_max_le l d : list_max l <= d <-> Forall (fun k => k <= d) l.
Proof. apply list_max_le. Qed.
Lemma low_children d t r ch : low (S d) (PN t r ch) <-> Forall (low d) ch.
Proof.
  unfold low. cbn. rewrite <- Nat.succ_le_mono, list_max_le. induction ch; cbn; split; intro H; constructor; inversion H; subst; auto; now apply IHch.
Qed.
Lemma low_some d n : low d n -> exists d', d = S d'.
Proof. destruct n. unfold low. cbn. destruct d; [lia|]. eauto. Qed.
Lemma low_type d t t' r r' ch : low d (PN t r ch) -> low d (PN t' r' ch).
Proof. exact (fun H => H). Qed.
Lemma low_result d n r : low d n -> low d (with_result n r).
Proof. destruct n. exact (fun H => H). Qed.
Lemma low_mono d d' n : d <= d' -> low d n -> low d' n.
Proof. unfold low. lia. Qed.

Section Runs.
Variable w : world.
Variable x : externals.
Variable ee : engine_texts.
Variable actual : request.
Notation walk := (walk w x ee actual).
Notation W f := (walk f).

Lemma low_inject i : forall n d, low d n -> low d (inject_index w i n).
Proof.
  fix IH 1. intros [t r ch] d H.
  destruct (low_some _ _ H) as [d' ->].
  assert (HF : Forall (low d') (map (inject_index w i) ch)).
  { apply low_children in H. clear - H IH. induction ch as [|c ch IHc]; cbn; constructor.
    - apply IH. now apply Forall_inv in H.
    - apply IHc. now apply Forall_inv_tail in H. }
  destruct t; cbn; try exact H; try (apply low_children; exact HF). apply low_children; constructor.
Qed.

Section Level.
Variable D : nat.
Hypothesis IH : forall d n st, d <= D -> low d n -> settled (low d) (fun f _ => W f st n).

Lemma walk_all_settled d : d <= D -> forall l st, Forall (low d) l ->
  settled (fun l' => Forall (low d) l' /\ length l' = length l) (fun f _ => walk_all (W f) st l).
Proof.
  intros Hd. induction l as [|c l IHl]; intros st H; cbn [walk_all].
  - apply s_runs. split; [constructor | reflexivity].
  - apply (s_then (low d)). { apply IH; [exact Hd | now apply Forall_inv in H]. }
    intros st' c' Hc'. eapply s_then. { apply IHl. now apply Forall_inv_tail in H. }
    intros st'' cs [Hcs Hlen]. apply s_runs. split; [constructor; assumption | cbn; congruence].
Qed.
(** The children put in the queue in place of a splat node are lower than it. *)
Lemma splat_children d c : low (S d) c -> Forall (low d) (pn_children c).
Proof. destruct c as [t r ch]. intro H. now apply low_children in H. Qed.

Lemma container_settled : forall d, d <= D -> forall l, Forall (low d) l -> forall rest,
  (forall st status done, Forall (low D) done ->
     settled (fun res => Forall (low D) (snd res)) (fun f g => queue_container (W f) g st rest status done)) ->
  forall st status done, Forall (low D) done ->
     settled (fun res => Forall (low D) (snd res)) (fun f g => queue_container (W f) g st (l ++ rest) status done).
Proof.
  induction d as [|d IHd]; intros Hd l Hl rest Hrest.
  - destruct l as [|c l]; [exact Hrest|]. apply Forall_inv in Hl. apply low_some in Hl as [d' Hd']. discriminate Hd'.
  - induction l as [|c l IHl]; [exact Hrest|]. intros st status done Hdone.
    cbn [app]. eapply s_step; [intros f g; cbn [queue_container]; reflexivity|].
    apply (s_then (low (S d))). { apply (IH (S d) c st Hd). now apply Forall_inv in Hl. }
    intros st' c' Hc'.
    assert (Hd1 : Forall (low D) (done ++ [c'])).
    { apply Forall_app. split; [exact Hdone|]. constructor; [|constructor]. eapply low_mono; [exact Hd | exact Hc']. }
    assert (IHl' := IHl (Forall_inv_tail Hl)).
    destruct (is_splat c') eqn:ES.
    + apply IHd; [lia | now apply splat_children | | exact Hd1]. intros. now apply IHl'.
    + now apply IHl'.
Qed.
Lemma pipeline_settled : forall d, d <= D -> forall l, Forall (low d) l -> forall rest,
  (forall st done, Forall (low D) done ->
     settled (fun res => Forall (low D) res) (fun f g => queue_pipeline (W f) g st rest done)) ->
  forall st done, Forall (low D) done ->
     settled (fun res => Forall (low D) res) (fun f g => queue_pipeline (W f) g st (l ++ rest) done).
Proof.
  induction d as [|d IHd]; intros Hd l Hl rest Hrest.
  - destruct l as [|c l]; [exact Hrest|]. apply Forall_inv in Hl. apply low_some in Hl as [d' Hd']. discriminate Hd'.
  - induction l as [|c l IHl]; [exact Hrest|]. intros st done Hdone.
    cbn [app]. eapply s_step; [intros f g; cbn [queue_pipeline]; reflexivity|].
    apply (s_then (low (S d))). { apply (IH (S d) c st Hd). now apply Forall_inv in Hl. }
    intros st' c' Hc'.
    assert (Hd1 : Forall (low D) (done ++ [c'])).
    { apply Forall_app. split; [exact Hdone|]. constructor; [|constructor]. eapply low_mono; [exact Hd | exact Hc']. }
    assert (IHl' := IHl (Forall_inv_tail Hl)).
    destruct (is_splat c') eqn:ES.
    + apply IHd; [lia | now apply splat_children | | exact Hd1]. intros. now apply IHl'.
    + now apply IHl'.
Qed.
Definition low_result_of (r : list pnode * list nvalue + str * list pnode) : Prop :=
  match r with inl (done, _) => Forall (low D) done | inr (_, done) => Forall (low D) done end.
Lemma evaluate_settled : forall d, d <= D -> forall l, Forall (low d) l -> forall rest,
  (forall st done vs, Forall (low D) done ->
     settled low_result_of (fun f g => evaluate (W f) g st rest done vs)) ->
  forall st done vs, Forall (low D) done ->
     settled low_result_of (fun f g => evaluate (W f) g st (l ++ rest) done vs).
Proof.
  induction d as [|d IHd]; intros Hd l Hl rest Hrest.
  - destruct l as [|c l]; [exact Hrest|]. apply Forall_inv in Hl. apply low_some in Hl as [d' Hd']. discriminate Hd'.
  - induction l as [|c l IHl]; [exact Hrest|]. intros st done vs Hdone.
    cbn [app]. eapply s_step; [intros f g; cbn [evaluate]; reflexivity|].
    assert (IHl' := IHl (Forall_inv_tail Hl)).
    destruct (pn_result c) as [[|v|e]|] eqn:EC.
    + now apply IHl'.
    + now apply IHl'.
    + apply s_runs. exact Hdone.
    + apply (s_catch (low (S d))).
      * apply (IH (S d) c st Hd). now apply Forall_inv in Hl.
      * intros st' c' Hc'.
        assert (Hd1 : Forall (low D) (done ++ [c'])).
        { apply Forall_app. split; [exact Hdone|]. constructor; [|constructor]. eapply low_mono; [exact Hd | exact Hc']. }
        destruct (is_splat c') eqn:ES.
        -- apply IHd; [lia | now apply splat_children | | exact Hd1]. intros. now apply IHl'.
        -- destruct (pn_value c') as [|v|e].
           ++ now apply IHl'.
           ++ now apply IHl'.
           ++ apply s_runs. exact Hd1.
      * intros st' m. apply s_runs. exact Hdone.
Qed.

Notation lowD := (Forall (low D)).
Lemma node_low t r ch : lowD ch -> low (S D) (PN t r ch).
Proof. intro H. now apply low_children. Qed.
Hint Resolve node_low : core.

Lemma container_ok st ch : lowD ch ->
  settled (fun res => lowD (snd res)) (fun f _ => queue_container (W f) f st ch NOk []).
Proof.
  intro H. apply (s_diag _ (fun f g => queue_container (W f) g st ch NOk [])).
  rewrite <- (app_nil_r ch). apply (container_settled D (le_n D)); [exact H | | constructor].
  intros. apply (s_ext _ (fun _ _ => Runs st0 (status, done))); [intros f [|g]; reflexivity|]. now apply s_runs.
Qed.
Lemma pipeline_ok st ch : lowD ch -> settled lowD (fun f _ => queue_pipeline (W f) f st ch []).
Proof.
  intro H. apply (s_diag _ (fun f g => queue_pipeline (W f) g st ch [])).
  rewrite <- (app_nil_r ch). apply (pipeline_settled D (le_n D)); [exact H | | constructor].
  intros. apply (s_ext _ (fun _ _ => Runs st0 done)); [intros f [|g]; reflexivity|]. now apply s_runs.
Qed.
Lemma evaluate_ok st ch : lowD ch -> settled low_result_of (fun f _ => evaluate (W f) f st ch [] []).
Proof.
  intro H. apply (s_diag _ (fun f g => evaluate (W f) g st ch [] [])).
  rewrite <- (app_nil_r ch). apply (evaluate_settled D (le_n D)); [exact H | | constructor].
  intros. apply (s_ext _ (fun _ _ => Runs st0 (inl (done, vs)))); [intros f [|g]; reflexivity|]. now apply s_runs.
Qed.
Lemma args_ok n o st ch : lowD ch ->
  settled (fun ao => lowD (fst ao) /\ lowD (snd ao) /\ length (fst ao) = n) (fun f _ => validate_args (W f) n o st ch).
Proof.
  intro H. unfold validate_args. destruct (Nat.ltb (length ch) n) eqn:E1; cbn [orb]; [apply s_fails|].
  destruct (Nat.ltb (n + o) (length ch)); [apply s_fails|].
  apply Nat.ltb_ge in E1.
  assert (H1 : lowD (firstn n ch) /\ lowD (skipn n ch)).
  { apply Forall_app. now rewrite firstn_skipn. }
  eapply s_then. { apply (walk_all_settled D (le_n D)). apply H1. }
  intros st' args [Ha Hl]. apply s_runs. cbn. split; [exact Ha|]. split; [apply H1|]. rewrite Hl, firstn_length. lia.
Qed.
Lemma walk_ok st c : low D c -> settled (low D) (fun f _ => W f st c).
Proof. apply IH. apply le_n. Qed.

Ltac runs := apply s_runs; apply node_low; repeat (apply Forall_app; split); auto.

Lemma custom_ok t st args opt m : lowD args -> lowD opt ->
  settled (low (S D)) (fun f _ => custom_error w ee (W f) t st args opt m).
Proof.
  intros Ha Ho. unfold custom_error. destruct opt as [|o opt]; [runs|].
  apply (s_catch (low D)).
  - apply walk_ok. now apply Forall_inv in Ho.
  - intros st' o' Hlow. runs.
  - intros st' m'. runs.
Qed.
Lemma values_ok t st ch f0 : lowD ch -> settled (low (S D)) (fun f _ => with_values (W f) f t st ch f0).
Proof.
  intro H. unfold with_values. eapply s_then; [apply evaluate_ok; exact H|].
  intros st' [[done vs]|[e done]] Hr; runs.
Qed.
Lemma one_ok t st ch f0 : lowD ch -> settled (low (S D)) (fun f _ => with_one (W f) t st ch f0).
Proof.
  intro H. unfold with_one. eapply s_catch; [apply args_ok; exact H| |].
  - intros st' [args opt] [Ha [Ho Hl]]. cbn [fst] in *. destruct args as [|a [|b args]]; try discriminate Hl. runs.
  - intros st' m. runs.
Qed.
Lemma several_ok n t st ch f0 : lowD ch -> settled (low (S D)) (fun f _ => with_args (W f) n t st ch f0).
Proof.
  intro H. unfold with_args. eapply s_catch; [apply args_ok; exact H| |].
  - intros st' [args opt] [Ha [Ho Hl]]. cbn [fst] in *. runs.
  - intros st' m. runs.
Qed.
Lemma match_ok m t st ch : lowD ch -> settled (low (S D)) (fun f _ => execute_match w ee (W f) m t st ch).
Proof.
  intro H. unfold execute_match. eapply s_catch; [apply args_ok; exact H| |].
  - intros st' [args opt] [Ha [Ho Hl]]. cbn [fst snd] in *.
    destruct args as [|a1 [|a2 [|a3 [|b args]]]]; try discriminate Hl.
    destruct (value_or_error (pn_value a1)) as [v1|e]; [|runs].
    destruct (value_or_error (pn_value a2)) as [v2|e]; [|runs].
    destruct (value_or_error (pn_value a3)) as [v3|e]; [|runs].
    destruct (create_rule w m (dflt (v_json v3) JNull)) as [r| |]; [|runs|apply s_panics].
    destruct (value_matches w ee v1 v2 r); [runs|].
    destruct opt as [|o opt]; [runs|]. apply custom_ok; assumption.
  - intros st' e. runs.
Qed.
Lemma if_ok t st ch : lowD ch -> settled (low (S D)) (fun f _ => execute_if (W f) t st ch).
Proof.
  intro H. unfold execute_if. destruct ch as [|c rest]; [runs|].
  pose proof (Forall_inv H) as Hc. pose proof (Forall_inv_tail H) as Hr.
  apply (s_catch (low D)).
  - now apply walk_ok.
  - intros st1 first Hf. destruct (negb (is_truthy (pn_value first))).
    + destruct rest as [|yes [|no more]]; [runs|runs|].
      apply (s_catch (low D)).
      * apply walk_ok. apply Forall_inv_tail in Hr. now apply Forall_inv in Hr.
      * intros st2 no' Hno. runs. constructor; [exact Hf|]. constructor; [now apply Forall_inv in Hr|].
        constructor; [exact Hno|]. apply Forall_inv_tail in Hr. now apply Forall_inv_tail in Hr.
      * intros st2 m. runs.
    + destruct rest as [|yes more]; [runs|].
      apply (s_catch (low D)).
      * apply walk_ok. now apply Forall_inv in Hr.
      * intros st2 s Hs. runs. constructor; [exact Hf|]. constructor; [exact Hs|]. now apply Forall_inv_tail in Hr.
      * intros st2 m. runs.
  - intros st1 m. runs.
Qed.
Lemma and_ok : forall l st r done, lowD l -> lowD done ->
  settled (fun res => lowD (snd res)) (fun f _ => walk_and (W f) st l r done).
Proof.
  induction l as [|c l IHl]; intros st r done Hl Hd; cbn [walk_and]; [now apply s_runs|].
  pose proof (Forall_inv Hl) as Hc. pose proof (Forall_inv_tail Hl) as Hr.
  apply (s_catch (low D)).
  - now apply walk_ok.
  - intros st' c' Hc'. apply IHl; [exact Hr|]. apply Forall_app. auto.
  - intros st' m. apply IHl; [exact Hr|]. apply Forall_app. split; [exact Hd|]. constructor; [|constructor]. now apply low_result.
Qed.
Lemma tee_ok t st ch : lowD ch -> settled (low (S D)) (fun f _ => execute_tee (W f) t st ch).
Proof.
  intro H. unfold execute_tee. destruct ch as [|c rest]; [runs|].
  pose proof (Forall_inv H) as Hc. pose proof (Forall_inv_tail H) as Hr.
  apply (s_catch (low D)).
  - now apply walk_ok.
  - intros st1 first Hf. destruct (is_err (pn_value first)); [runs|].
    eapply s_then; [apply and_ok; auto|]. intros st2 res Hres. runs.
  - intros st1 m. runs.
Qed.
Lemma each_ok t st ch : lowD ch -> settled (low (S D)) (fun f _ => execute_for_each w (W f) t st ch).
Proof.
  intro H. unfold execute_for_each. destruct ch as [|c rest]; [runs|].
  pose proof (Forall_inv H) as Hc. pose proof (Forall_inv_tail H) as Hr.
  apply (s_catch (low D)).
  - now apply walk_ok.
  - intros st1 first Hf. destruct (is_err (pn_value first)); [runs|].
    eapply s_then; [apply and_ok; auto|].
    + apply Forall_forall. intros c1 Hc1. apply in_flat_map in Hc1 as [i [_ Hc1]]. apply in_map_iff in Hc1 as [c2 [<- Hc2]].
      apply low_inject. eapply Forall_forall in Hr; eassumption.
    + intros st2 res Hres. runs.
  - intros st1 m. runs.
Qed.
Lemma entries_ok only t st ch : lowD ch -> settled (low (S D)) (fun f _ => check_entries w ee (W f) only t st ch).
Proof.
  intro H. unfold check_entries. eapply s_catch; [apply args_ok; exact H| |].
  - intros st' [args opt] [Ha [Ho Hl]]. cbn [fst snd] in *.
    destruct args as [|a1 [|a2 [|b args]]]; try discriminate Hl.
    destruct (entries_of w (value_or_null (pn_value a2))) as [keys|]; [|runs].
    cbv zeta. destruct (is_nil _); [runs|]. destruct opt as [|o opt]; [runs|].
    eapply s_then; [apply custom_ok; assumption|]. intros st'' n Hn. now apply s_runs.
  - intros st' e. runs.
Qed.
Lemma count_ok t st ch : lowD ch -> settled (low (S D)) (fun f _ => expect_count w ee (W f) t st ch).
Proof.
  intro H. unfold expect_count. eapply s_catch; [apply args_ok; exact H| |].
  - intros st' [args opt] [Ha [Ho Hl]]. cbn [fst snd] in *.
    destruct args as [|a1 [|a2 [|b args]]]; try discriminate Hl. cbv zeta.
    destruct (count_of (value_or_null (pn_value a2))) as [n|]; [|apply custom_ok; assumption].
    destruct (N.eqb n _); [runs|]. apply custom_ok; assumption.
  - intros st' e. runs.
Qed.
Lemma empty_ok t st ch : lowD ch -> settled (low (S D)) (fun f _ => expect_empty w ee (W f) t st ch).
Proof.
  intro H. unfold expect_empty. eapply s_catch; [apply args_ok; exact H| |].
  - intros st' [args opt] [Ha [Ho Hl]]. cbn [fst snd] in *.
    destruct args as [|a1 [|b args]]; try discriminate Hl.
    assert (HE : forall r, settled (low (S D)) (fun f _ =>
      match value_is_empty (value_or_null r) with
      | Some b => Runs st' (PN t (Some (NVal (NBool b))) ([a1] ++ opt))
      | None => custom_error w ee (W f) t st' [a1] opt (S_ "Expected to be empty")
      end)).
    { intro r. destruct (value_is_empty (value_or_null r)); [runs|]. apply custom_ok; assumption. }
    destruct (pn_value a1) as [|v|e]; [apply HE|apply HE|runs].
  - intros st' e. runs.
Qed.
Lemma action_ok a st r ch : lowD ch -> settled (low (S D)) (fun f _ => execute_action w x ee (W f) f a st r ch).
Proof.
  intro H. unfold execute_action. cbv zeta.
  destruct (starts_with _ a); [now apply match_ok|].
  repeat (match goal with |- context [if str_eqb a ?k then _ else _] => destruct (str_eqb a k) end;
          [first [ now apply values_ok | now apply one_ok | now apply several_ok | now apply empty_ok | now apply if_ok
                 | now apply tee_ok | now apply entries_ok | now apply count_ok | now apply each_ok
                 | unfold execute_apply, execute_push, execute_pop; destruct st; runs ] | ]).
  runs.
Qed.
Lemma node_ok st n : low (S D) n -> settled (low (S D)) (fun f _ => walk_node w x ee actual (W f) f st n).
Proof.
  destruct n as [t r ch]. intro H. pose proof (proj1 (low_children _ _ _ _) H) as Hch. unfold walk_node.
  destruct t.
  - now apply s_runs.
  - eapply s_then; [now apply container_ok|]. intros. runs.
  - now apply action_ok.
  - destruct (read_value x v); [runs|apply s_fails].
  - destruct (resolve w x actual p); [runs|runs|apply s_panics].
  - eapply s_then; [now apply pipeline_ok|]. intros. runs.
  - destruct (resolve_stack st p); runs.
  - eapply s_then; [apply (walk_all_settled D (le_n D)); exact Hch|]. intros st' cs [Hcs _]. runs.
    apply Forall_forall. intros n Hn. apply in_flat_map in Hn as [c [Hc Hn]]. eapply Forall_forall in Hcs; [|exact Hc].
    unfold splatted in Hn. destruct (pn_result c) as [[|v|e]|]; try (destruct Hn as [<-|[]]; exact Hcs).
    destruct v; try (destruct Hn as [<-|[]]; exact Hcs);
      apply in_map_iff in Hn as [? [<- _]]; now apply low_result.
  - now apply s_runs.
Qed.
End Level.

Lemma walk_settles : forall D d n st, d <= D -> low d n -> settled (low d) (fun f _ => W f st n).
Proof.
  induction D as [|D IHD]; intros d n st Hd Hn.
  - apply low_some in Hn as [d' ->]. lia.
  - destruct (Nat.le_gt_cases d D) as [Hle|Hgt]; [now apply IHD|].
    assert (d = S D) by lia. subst d.
    apply (s_ext _ (fun f _ => match f with O => Fuel | S f' => walk_node w x ee actual (W f') f' st n end)).
    + intros [|f] g; reflexivity.
    + apply (s_lift _ (fun f => walk_node w x ee actual (W f) f st n)). apply (node_ok D); [|exact Hn].
      intros d n0 st0 Hd' Hn'. now apply IHD.
Qed.

Theorem walk_ends st n : exists N o, o <> Fuel /\ forall f, N <= f -> W f st n = o.
Proof.
  destruct (walk_settles (depth n) (depth n) n st (le_n _) (le_n _)) as [k [o [H1 [_ H3]]]].
  exists k, o. split; [exact H1|]. intros f Hf. apply (H3 f f Hf Hf).
Qed.
End Runs.
