(** The values a plan finds in a JSON body, and what the plan of a JSON body without rules accepts. *)
From Coq Require Import Ascii String List Arith NArith ZArith Lia Bool.
From Verif Require Import Base PathExp Json Text TextProofs MatchingRules Matchers JsonCompare Headers Query ContentType Http Base64 Engine EnginePlan EngineProofs SpecEngine.
Import ListNotations.
Open Scope N_scope.

(** ** Looking a path up *)
Lemma show_aux_head : forall f n acc c r, n <> 0 -> n < 2 ^ N.of_nat f -> show_aux f n acc = c :: r -> c <> 48.
Proof.
  induction f as [|f IH]; intros n acc c r Hn Hb E.
  - cbn in Hb. lia.
  - cbn [show_aux] in E.
    assert (Hdiv : n = 10 * (n / 10) + n mod 10) by (apply N.div_mod; lia).
    destruct (N.eqb_spec (n / 10) 0) as [E0|E0].
    + apply (f_equal (hd 0)) in E. cbn [hd] in E. rewrite E0, N.mul_0_r, N.add_0_l in Hdiv. rewrite <- Hdiv in E. lia.
    + apply (IH _ _ _ _ E0) in E; [exact E|]. rewrite Nat2N.inj_succ, N.pow_succ_r' in Hb. revert Hdiv Hb.
      assert (Hm : n mod 10 < 10) by (apply N.mod_lt; lia). revert Hm.
      generalize (n mod 10), (n / 10), (2 ^ N.of_nat f). lia.
Qed.
Lemma show_N_head n c d r : show_N n = c :: d :: r -> c <> 48.
Proof.
  intro E. destruct (N.eq_dec n 0) as [->|Hn]; [vm_compute in E; discriminate E|].
  unfold show_N in E. eapply show_aux_head; [exact Hn | apply N_size_nat_bound | exact E].
Qed.
Lemma pointer_index_show n : n < two64 -> pointer_index (show_N n) = Some n.
Proof.
  intro H. pose proof (parse_usize_show n H) as HP. pose proof (show_N_digits n) as HD.
  destruct (show_N n) as [|c [|d r]] eqn:E.
  - exfalso. exact (show_N_nonempty n E).
  - unfold pointer_index. destruct (N.eqb_spec c 43) as [->|Hc]; [discriminate HD | exact HP].
  - unfold pointer_index. pose proof (show_N_head n c d r E) as H48.
    destruct (N.eqb_spec c 43) as [->|Hc]; [discriminate HD|]. apply N.eqb_neq in H48. rewrite H48. exact HP.
Qed.

Definition step_text (s : str + N) : str := match s with inl k => k | inr i => show_N i end.
Definition step_token (s : str + N) : token := match s with inl k => TField k | inr i => TIndex i end.
Definition step_simple (s : str + N) : Prop := match s with inl k => simple_name k | inr i => i < two64 end.
Definition step_in (j : json) (s : str + N) : option json :=
  match s, j with
  | inl k, JObj m => obj_get k m
  | inr i, JArr l => nth_error l (N.to_nat i)
  | _, _ => None
  end.
Fixpoint at_steps (j : json) (ss : list (str + N)) : option json :=
  match ss with
  | [] => Some j
  | s :: ss' => match step_in j s with Some v => at_steps v ss' | None => None end
  end.
Lemma at_steps_app j a b : at_steps j (a ++ b) = match at_steps j a with Some v => at_steps v b | None => None end.
Proof. revert j. induction a as [|s a IH]; intro j; [reflexivity|]. cbn. destruct (step_in j s); [apply IH | reflexivity]. Qed.

Lemma graph_short ss : forall j, Forall (fun l => (length l <= length ss)%nat) (graph (map step_token ss) j).
Proof.
  induction ss as [|s ss IH]; intro j; [repeat constructor|].
  assert (HN : Forall (fun l : list str => (length l <= length (s :: ss))%nat) [[]]) by (repeat constructor; cbn; lia).
  assert (HC : forall k v, Forall (fun l => (length l <= length (s :: ss))%nat) (map (cons k) (graph (map step_token ss) v))).
  { intros k v. apply Forall_forall. intros l Hl. apply in_map_iff in Hl as [l' [<- Hl']].
    specialize (IH v). eapply Forall_forall in IH; [|exact Hl']. cbn. lia. }
  destruct s as [k|i]; cbn [map step_token graph].
  - destruct j; try exact HN. destruct (obj_get k m); [apply HC | exact HN].
  - destruct j; try exact HN. destruct (nth_error l (N.to_nat i)); [apply HC|].
    specialize (IH (JArr l)). eapply Forall_impl; [|exact IH]. cbn. lia.
Qed.
Lemma graph_found ss : forall j v, at_steps j ss = Some v -> graph (map step_token ss) j = [map step_text ss].
Proof.
  induction ss as [|s ss IH]; intros j v H; [reflexivity|]. cbn [at_steps] in H.
  destruct (step_in j s) as [u|] eqn:E; [|discriminate H]. specialize (IH _ _ H).
  destruct s as [k|i]; destruct j; cbn in E; try discriminate E; cbn [map step_token graph step_text]; rewrite E, IH; reflexivity.
Qed.
Lemma graph_missing ss : forall j, at_steps j ss = None -> Forall (fun l => (length l < length ss)%nat) (graph (map step_token ss) j).
Proof.
  induction ss as [|s ss IH]; intros j H; [discriminate H|]. cbn [at_steps] in H.
  assert (HN : Forall (fun l : list str => (length l < length (s :: ss))%nat) [[]]) by (constructor; [cbn; lia | constructor]).
  assert (HC : forall k v, at_steps v ss = None -> Forall (fun l => (length l < length (s :: ss))%nat) (map (cons k) (graph (map step_token ss) v))).
  { intros k v Hv. apply Forall_forall. intros l Hl. apply in_map_iff in Hl as [l' [<- Hl']].
    specialize (IH v Hv). eapply Forall_forall in IH; [|exact Hl']. cbn. lia. }
  destruct s as [k|i]; cbn [map step_token graph].
  - destruct j; try exact HN. cbn [step_in] in H. destruct (obj_get k m); [now apply HC | exact HN].
  - destruct j; try exact HN. cbn [step_in] in H. destruct (nth_error l (N.to_nat i)); [now apply HC|].
    pose proof (graph_short ss (JArr l)) as G. eapply Forall_impl; [|exact G]. cbn. lia.
Qed.

Lemma digits_not c s : is_digit c = false -> all_digits s = true -> ~ In c s.
Proof.
  intros Hc Hs Hin. unfold all_digits in Hs. rewrite forallb_forall in Hs. specialize (Hs c Hin). congruence.
Qed.
Lemma step_text_ok s : step_simple s -> step_text s <> [] /\ ~ In 47 (step_text s) /\ ~ In 126 (step_text s).
Proof.
  destruct s as [k|i]; cbn; [exact (fun H => H)|]. intros _. split; [apply show_N_nonempty|].
  split; (apply digits_not; [reflexivity | apply show_N_digits]).
Qed.
Lemma unescape_plain s : ~ In 126 s -> unescape_pointer s = s.
Proof.
  induction s as [|c s IH]; intro H; [reflexivity|]. cbn [unescape_pointer].
  destruct (N.eqb_spec c 126) as [->|Hc]; [exfalso; apply H; now left|]. f_equal. apply IH. intro Hi. apply H. now right.
Qed.
Lemma split_join ss : Forall (fun s => ~ In 47 s) ss -> ss <> [] -> split_on 47 (join_with (S_ "/") ss) = ss.
Proof.
  induction ss as [|s ss IH]; intros H Hn; [congruence|]. destruct ss as [|s' ss].
  - cbn. apply split_on_none. now apply Forall_inv in H.
  - change (join_with (S_ "/") (s :: s' :: ss)) with (s ++ 47 :: join_with (S_ "/") (s' :: ss)).
    rewrite split_on_app by (now apply Forall_inv in H). rewrite IH; [reflexivity | now apply Forall_inv_tail in H | discriminate].
Qed.
Lemma pointer_found ss j v : Forall step_simple ss -> ss <> [] -> at_steps j ss = Some v ->
  pointer j (join_with (S_ "/") ([] :: map step_text ss)) = Some v.
Proof.
  intros H Hn Hat. unfold pointer.
  destruct ss as [|s ss]; [congruence|]. set (texts_ := map step_text (s :: ss)).
  assert (HJ : join_with (S_ "/") ([] :: texts_) = 47 :: join_with (S_ "/") texts_) by reflexivity. rewrite HJ.
  assert (HS : split_on 47 (47 :: join_with (S_ "/") texts_) = [] :: texts_).
  { change (47 :: join_with (S_ "/") texts_) with ([] ++ 47 :: join_with (S_ "/") texts_). rewrite split_on_app by (intros []).
    rewrite split_join; [reflexivity | | discriminate]. subst texts_. apply Forall_forall. intros t Ht. apply in_map_iff in Ht as [u [<- Hu]].
    eapply Forall_forall in H; [|exact Hu]. now apply step_text_ok. }
  rewrite HS. clear HS HJ. subst texts_.
  assert (HU : map unescape_pointer (map step_text (s :: ss)) = map step_text (s :: ss)).
  { rewrite <- (map_id (map step_text (s :: ss))) at 2. apply map_ext_in. intros t Ht. apply in_map_iff in Ht as [u [<- Hu]].
    apply unescape_plain. eapply Forall_forall in H; [|exact Hu]. now apply step_text_ok. }
  rewrite HU. clear HU Hn. revert j H Hat. generalize (s :: ss). clear.
  induction l as [|s l IH]; intros j H Hat; [exact Hat|]. cbn [map fold_left at_steps] in *.
  destruct (step_in j s) as [u|] eqn:E; [|discriminate Hat].
  assert (HS : pointer_step (Some j) (step_text s) = Some u).
  { pose proof (Forall_inv H) as Hs. destruct s as [k|i]; destruct j; cbn in E; try discriminate E; cbn [step_text pointer_step]; [exact E|].
    cbn in Hs. now rewrite pointer_index_show. }
  rewrite HS. apply IH; [now apply Forall_inv_tail in H | exact Hat].
Qed.

Definition steps_path (ss : list (str + N)) : docpath := fold_left (fun p s => push p (step_token s)) ss path_root.
Lemma steps_snoc ss s : steps_path (ss ++ [s]) = push (steps_path ss) (step_token s).
Proof. unfold steps_path. now rewrite fold_left_app. Qed.
Lemma steps_tokens ss : path_tokens (steps_path ss) = TRoot :: map step_token ss.
Proof.
  induction ss as [|s ss IH] using rev_ind; [reflexivity|]. rewrite steps_snoc. unfold push. cbn [path_tokens]. rewrite IH.
  cbn. now rewrite map_app.
Qed.
Definition found (o : option json) : nvalue := match o with Some v => NJson v | None => NNull end.
Lemma resolve_found p ss root st : path_tokens p = TRoot :: map step_token ss -> Forall step_simple ss ->
  resolve_stack (Some (NVal (NJson root)) :: st) p = inl (found (at_steps root ss)).
Proof.
  intros Hp H. unfold resolve_stack. cbn [top]. unfold is_root. rewrite Hp.
  destruct ss as [|s ss]; [reflexivity|].
  cbn [map]. f_equal. unfold resolve_paths. rewrite Hp. cbn [graph]. change (step_token s :: map step_token ss) with (map step_token (s :: ss)).
  cbn [length]. rewrite map_length.
  destruct (at_steps root (s :: ss)) as [v|] eqn:E.
  - rewrite (graph_found _ _ _ E). cbn [flat_map]. rewrite map_length. cbn [length]. rewrite Nat.eqb_refl, andb_true_r, app_nil_r.
    assert (HL : nonempty (last (map step_text (s :: ss)) []) = true).
    { clear E Hp. assert (Hin : In (last (s :: ss) s) (s :: ss)).
      { clear. revert s. induction ss as [|s' ss IH]; intro s; [now left|]. cbn [last]. right.
        destruct ss; [now left|]. change (In (last (s0 :: ss) s) (s' :: s0 :: ss)). specialize (IH s').
        assert (HD : last (s' :: s0 :: ss) s' = last (s0 :: ss) s).
        { clear. cbn [last]. revert s0. induction ss as [|a ss IH]; intro s0; [reflexivity|]. cbn [last] in *. apply IH. }
        rewrite HD in IH. exact IH. }
      assert (HM : forall l d, l <> [] -> last (map step_text l) [] = step_text (last l d)).
      { induction l as [|a l IH]; intros d Hl; [congruence|]. destruct l; [reflexivity|]. cbn [map last] in *. apply (IH d). discriminate. }
      rewrite (HM (s :: ss) s) by discriminate. eapply Forall_forall in H; [|exact Hin]. apply step_text_ok in H as [H _].
      destruct (step_text (last (s :: ss) s)); [congruence | reflexivity]. }
    match goal with |- context [if ?b then _ else _] => replace b with true by (symmetry; exact HL) end. pose proof (pointer_found (s :: ss) root v H ltac:(discriminate) E) as HP.
    match goal with |- context [pointer root ?q] => replace (pointer root q) with (Some v) by (symmetry; exact HP) end. reflexivity.
  - pose proof (graph_missing _ _ E) as G. replace (flat_map _ _) with (@nil str); [reflexivity|]. symmetry.
    induction G as [|l ls Hl _ IH]; [reflexivity|]. cbn [flat_map]. rewrite IH, app_nil_r.
    match goal with |- context [andb _ ?b] => destruct b eqn:EB end; [|now rewrite andb_false_r].
    apply Nat.eqb_eq, Nat.succ_inj in EB. exfalso. apply (Nat.lt_irrefl (length (s :: ss))).
    exact (eq_ind _ (fun n => (n < length (s :: ss))%nat) Hl _ EB).
Qed.
