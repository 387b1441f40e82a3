(** More proofs about body comparison: array-contains, iteration order, deep merge. *)
From Coq Require Import Ascii String List Arith NArith ZArith Lia Bool Sorted Permutation.
From Verif Require Import Base PathExp SpecPath PropPath Json MatchingRules SpecRules RulesProofs RulesProofs3 PropRules
  Matchers JsonCompare SpecMatch CompareProofs CompareProofs2.
Import ListNotations.
Open Scope N_scope.
Local Opaque show_N.

(** * Array contains *)
Lemma variant_nil : forall T (cb : docpath -> T -> T -> context -> list mismatch) p e a c v,
  match_variant T clone_with cb p e a c v = [] <->
  exists x y, nth_error e (N.to_nat (fst v)) = Some x /\ In y a /\ cb path_root x y (mkCtx (allow c) (snd v)) = [].
Proof.
  intros T cb p e a c v. unfold match_variant. destruct (nth_error e _) as [x|].
  - destruct (existsb _ a) eqn:E.
    + split; [intros _ | reflexivity]. apply existsb_exists in E as [y [I E]]. exists x, y.
      repeat split; [exact I|]. unfold clone_with in E. destruct (cb _ _ _ _); [reflexivity | discriminate].
    + split; [discriminate|]. intros (x' & y & Ex & I & C). injection Ex as <-.
      assert (existsb (fun y => match cb path_root x y (clone_with c (snd v)) with [] => true | _ => false end) a = true).
      { apply existsb_exists. exists y. split; [exact I|]. unfold clone_with. rewrite C. reflexivity. }
      congruence.
  - split; [discriminate|]. intros (x' & y & Ex & _). discriminate.
Qed.

(** * The equality context of an array-contains rule without variants *)
Section EqCtx.
Variable w : world.
Variable c : context.
Hypothesis Eqc : matchers c = cat_equality CBody.
Lemma eq_only : only_rule c path_empty rl_equality.
Proof. unfold only_rule. rewrite Eqc. split; reflexivity. Qed.
Lemma eq_acc : forall p, accepts (path_tokens path_empty) (to_vec p).
Proof. constructor. Qed.
Lemma eq_short : (length (path_tokens path_empty) <= 58)%nat.
Proof. cbn; lia. Qed.

Lemma eqb_arr_iff : forall x y, json_eqb (JArr x) (JArr y) = true <-> Forall2 (fun u v => json_eqb u v = true) x y.
Proof. intros. rewrite json_eqb_arr. apply list_eqb_forall2. Qed.

Lemma eq_ctx : forall x y p, json_wf x -> json_wf y ->
  compare_json w p x y c = [] <-> (x = JArr [] /\ type_of y = TyArray) \/ json_eqb x y = true.
Proof.
  induction x using json_ind'; intros y p Wx Wy; rewrite compare_unfold.
  1-4: cbn [compare_step]; unfold compare_values; rewrite (single_defined c _ _ eq_only eq_short p (eq_acc p)),
    (single_best c _ _ eq_only eq_short p (eq_acc p)); unfold match_values, rl_equality, as_cascaded;
    cbn [rl_is_empty rl_rules rl_logic rl_cascaded forallb existsb filter json_matches];
    match goal with |- context [json_eqb ?e ?a] => destruct (json_eqb e a) end;
    (split; [try discriminate; auto | intros [[E _]|E]; [discriminate E|]; try discriminate E; reflexivity]).
  - destruct y as [| | | |y|]; try (split; [discriminate | intros [[_ E]|E]; discriminate E]).
    cbn [compare_step]. unfold compare_lists. rewrite (single_defined c _ _ eq_only eq_short p (eq_acc p)),
    (single_best c _ _ eq_only eq_short p (eq_acc p)). unfold compare_lists_with_matchingrules, rl_equality, as_cascaded.
    cbn [rl_is_empty rl_rules rl_logic rl_cascaded map concat]. rewrite app_nil_r.
    destruct l as [|f l]; [cbn; tauto|]. remember (f :: l) as l' eqn:El.
    assert (compare_lists_with_matchingrule json json_eqb clone_with (compare_json w) REquality p l' y c
              (length (path_tokens path_empty) <? length (path_tokens p))%nat =
            (if list_eqb json_eqb l' y then [] else [mm p (KRule REquality)]) ++ match_list_contents json (compare_json w) p l' y c) as ->
      by (rewrite El; reflexivity).
    rewrite json_eqb_arr. split.
    + intro E. apply app_eq_nil in E as [E _]. destruct (list_eqb json_eqb l' y); [right; reflexivity | discriminate].
    + intros [[E _]|E]; [rewrite El in E; discriminate|]. rewrite E. cbn [app].
      apply json_wf_arr in Wx, Wy. rewrite Forall_forall in H, Wx, Wy.
      rewrite list_eqb_forall2 in E. unfold match_list_contents.
      apply nth_elements; [intro j; apply (single_defined c _ _ eq_only eq_short), eq_acc|].
      intros n u v Eu Ev. assert (n < length y)%nat as Ln by (apply nth_error_Some; congruence).
      assert (In u l') as Iu by (eapply pad_in, nth_error_In, Eu).
      rewrite pad_nth in Eu by exact Ln. unfold nth_or_first in Eu. rewrite <- (F2_length _ _ _ _ _ E) in Ln.
      apply nth_error_Some in Ln. destruct (nth_error l' n) as [u'|] eqn:En; [|congruence]. injection Eu as ->.
      apply (H u Iu); [apply Wx, Iu | eapply Wy, nth_error_In, Ev|]. right.
      clear - E En Ev. revert n En Ev. induction E as [|a b la lb Q E IH]; intros n En Ev; [destruct n; discriminate|].
      destruct n; cbn in *; [congruence | eapply IH; eassumption].
  - destruct y as [| | | | |y]; try (split; [discriminate | intros [[F E]|E]; [discriminate F | discriminate E]]).
    cbn [compare_step]. unfold compare_maps. rewrite (single_defined c _ _ eq_only eq_short p (eq_acc p)),
    (single_best c _ _ eq_only eq_short p (eq_acc p)).
    unfold rl_equality, as_cascaded. cbn [rl_rules rl_cascaded flat_map]. rewrite app_nil_r.
    unfold compare_maps_with_matchingrule. cbn [is_values_matcher]. rewrite andb_false_r.
    cbn [map_matches]. rewrite json_eqb_obj.
    destruct (list_eqb (fun a b => str_eqb (fst a) (fst b) && json_eqb (snd a) (snd b)) m y) eqn:E.
    + cbn [app]. split; [right; reflexivity | intros _].
      assert (agrees false (JObj m) (JObj y)) as AG by (apply agrees_eqb; try assumption; rewrite json_eqb_obj; exact E).
      inversion AG as [? ? S| |? ? P B]; subst; [inversion S|].
      apply json_wf_obj in Wx as [Sx Wx]. apply json_wf_obj in Wy as [Sy Wy]. rewrite Forall_forall in H, Wx, Wy.
      destruct (negb (nonempty m) && negb (allow c) && nonempty y) eqn:EM.
      { destruct m; [destruct y; [rewrite andb_comm in EM|]; discriminate | discriminate]. }
      assert (match_keys w c p (keys m) (keys y) = []) as ->.
      { apply (single_keys c _ _ eq_only eq_short); [reflexivity | apply eq_acc|].
        assert (keys m = keys y) as K.
        { apply sorted_keys_eq; try assumption. intro k. rewrite !obj_get_keys. split; intros [v G].
          - apply P in G as [v' [G _]]. eauto.
          - destruct (obj_get k m) eqn:G'; [eauto|]. apply (B eq_refl) in G'. congruence. }
        rewrite K. destruct (allow c); auto. }
      cbn [app]. apply entries_nil; [apply sorted_nodup, Sx|]. intros k v v' Gm Gy.
      pose proof Gm as Gm'. apply obj_get_in in Gm'.
      pose proof Gy as Gy'. apply obj_get_in in Gy'.
      apply (H (k, v) Gm'); [exact (Wx _ Gm') | exact (Wy _ Gy')|]. right. cbn.
      apply P in Gm as [v2 [G2 A2]]. assert (v2 = v') as -> by congruence.
      apply agrees_eqb; [exact (Wx _ Gm') | exact (Wy _ Gy') | exact A2].
    + split; [|intros [[F _]|F]; discriminate F].
      destruct (negb (nonempty m) && negb (allow c) && nonempty y); discriminate.
Qed.
End EqCtx.

(** * Iteration order *)
Definition ctx_equiv (c c' : context) : Prop :=
  allow c = allow c' /\ forall p,
    ctx_matcher_is_defined c p = ctx_matcher_is_defined c' p /\
    ctx_select_best c p = ctx_select_best c' p /\
    direct_entry_matcher c p = direct_entry_matcher c' p /\
    direct_any_matcher c p = direct_any_matcher c' p.
Lemma ctx_equiv_refl : forall c, ctx_equiv c c.
Proof. split; auto. Qed.

Section Order.
Variable w : world.
Lemma keys_equiv : forall c c' p e a, ctx_equiv c c' -> match_keys w c p e a = match_keys w c' p e a.
Proof.
  intros c c' p e a [A Q]. destruct (Q p) as (D & B & E & X). unfold match_keys. rewrite A, B, E, X. reflexivity.
Qed.
Definition respects {T} (cb : docpath -> T -> T -> context -> list mismatch) : Prop :=
  forall c c', ctx_equiv c c' -> forall p x y, cb p x y c = cb p x y c'.
Section Gen.
Variable T : Type.
Variable eqb : T -> T -> bool.
Variable cb : docpath -> T -> T -> context -> list mismatch.
Hypothesis R : respects cb.
Variables c c' : context.
Hypothesis Q : ctx_equiv c c'.

Lemma entries_equiv : forall p e a, compare_entries T cb p e a c = compare_entries T cb p e a c'.
Proof.
  intros p e a. unfold compare_entries. apply flat_map_ext_in. intros [k x] _. cbn.
  destruct (obj_get k a); [apply R, Q | reflexivity].
Qed.
Lemma clone_equiv : forall m, clone_with c m = clone_with c' m.
Proof. intro m. unfold clone_with. destruct Q as [-> _]. reflexivity. Qed.
Lemma map_rule_equiv : forall r casc p e a,
  compare_maps_with_matchingrule w T eqb clone_with cb r casc p e a c = compare_maps_with_matchingrule w T eqb clone_with cb r casc p e a c'.
Proof.
  intros r casc p e a. unfold compare_maps_with_matchingrule.
  assert (forall q x y, cb q x y (match r with REachValue d => clone_with c (each_value_rules p d) | _ => c end) =
                        cb q x y (match r with REachValue d => clone_with c' (each_value_rules p d) | _ => c' end)) as E.
  { intros q x y. destruct r; try (apply R, Q). rewrite clone_equiv. reflexivity. }
  destruct (negb casc && is_values_matcher r).
  - f_equal. apply flat_map_ext_in. intros [k y] _. cbn. destruct (obj_get k e); [apply E|].
    destruct e as [|[k0 f] e]; [reflexivity | apply E].
  - rewrite (keys_equiv c c' p _ _ Q), entries_equiv. reflexivity.
Qed.
Lemma elements_equiv : forall p e a i, match_elements T cb p c i e a = match_elements T cb p c' i e a.
Proof.
  induction e as [|x e IH]; intros a i; [reflexivity|]. cbn. destruct a; rewrite IH; f_equal.
  - destruct Q as [_ Q']. destruct (Q' (join p (show_N i))) as (-> & _). reflexivity.
  - apply R, Q.
Qed.
Lemma list_rule_equiv : forall r p e a casc,
  compare_lists_with_matchingrule T eqb clone_with cb r p e a c casc = compare_lists_with_matchingrule T eqb clone_with cb r p e a c' casc.
Proof.
  intros r p e a casc. unfold compare_lists_with_matchingrule. destruct e as [|f e]; [reflexivity|].
  destruct r; try (f_equal; apply elements_equiv).
  - apply flat_map_ext_in. intros v _. unfold match_variant. rewrite clone_equiv. reflexivity.
  - destruct casc; [reflexivity|]. rewrite clone_equiv. reflexivity.
Qed.
Lemma list_rules_equiv : forall p rl e a,
  compare_lists_with_matchingrules T eqb clone_with cb p rl e a c = compare_lists_with_matchingrules T eqb clone_with cb p rl e a c'.
Proof.
  intros p rl e a. unfold compare_lists_with_matchingrules. destruct (rl_is_empty rl); [reflexivity|].
  assert (map (fun r => compare_lists_with_matchingrule T eqb clone_with cb r p e a c (rl_cascaded rl)) (rl_rules rl) =
          map (fun r => compare_lists_with_matchingrule T eqb clone_with cb r p e a c' (rl_cascaded rl)) (rl_rules rl)) as ->; [|reflexivity].
  apply map_ext. intro r. apply list_rule_equiv.
Qed.
End Gen.

Lemma fuel_equiv : forall n, respects (compare_fuel w n).
Proof.
  induction n as [|n IH]; intros c c' Q p e a; [reflexivity|].
  cbn. unfold compare_step. pose proof Q as [A Q']. destruct (Q' p) as (D & B & _).
  destruct e; try (unfold compare_values; rewrite D, B; reflexivity).
  - destruct a; try reflexivity. unfold compare_lists, compare_list_content. rewrite D, B.
    rewrite (list_rules_equiv _ _ _ IH c c' Q), (elements_equiv _ _ IH c c' Q). reflexivity.
  - destruct a; try reflexivity. unfold compare_maps. rewrite A, D, B.
    rewrite (keys_equiv c c' p _ _ Q), (entries_equiv _ _ IH c c' Q).
    destruct (negb (nonempty m) && negb (allow c') && nonempty m0); [reflexivity|].
    destruct (ctx_matcher_is_defined c' p); [|reflexivity].
    apply flat_map_ext_in. intros r _. apply map_rule_equiv; assumption.
Qed.
End Order.

(** * Deep merge *)
Lemma deep_merge_obj : forall a b, json_deep_merge (JObj a) (JObj b) =
  JObj (fold_left (fun m kv => obj_insert (fst kv)
          (match obj_get (fst kv) m with Some x => json_deep_merge x (snd kv) | None => snd kv end) m) b a).
Proof.
  intros a b. cbn. f_equal. revert a. induction b as [|[k v] b IH]; intro a; [reflexivity|]. cbn. apply IH.
Qed.
Lemma merge_fold_get : forall b a k, NoDup (keys b) ->
  obj_get k (fold_left (fun m kv => obj_insert (fst kv)
          (match obj_get (fst kv) m with Some x => json_deep_merge x (snd kv) | None => snd kv end) m) b a) =
  match obj_get k b with
  | Some y => match obj_get k a with Some x => Some (json_deep_merge x y) | None => Some y end
  | None => obj_get k a
  end.
Proof.
  induction b as [|[j v] b IH]; intros a k ND; [reflexivity|]. inversion ND as [|? ? NI ND']; subst.
  cbn [fold_left fst snd]. rewrite IH by exact ND'. rewrite obj_insert_get. cbn [obj_get].
  destruct (str_eqb_spec k j) as [->|N].
  - assert (obj_get j b = None) as -> by (apply obj_get_none; exact NI).
    destruct (obj_get j a); reflexivity.
  - reflexivity.
Qed.
Lemma merge_fold_sorted : forall b a, StronglySorted str_lt (keys a) ->
  StronglySorted str_lt (keys (fold_left (fun m kv => obj_insert (fst kv)
          (match obj_get (fst kv) m with Some x => json_deep_merge x (snd kv) | None => snd kv end) m) b a)).
Proof. induction b as [|[j v] b IH]; intros a S; [exact S|]. cbn [fold_left]. apply IH, obj_insert_sorted, S. Qed.

Lemma deep_merge_merged : forall b a, json_wf a -> json_wf b -> merged a b (json_deep_merge a b).
Proof.
  induction b using json_ind'; intros a Wa Wb.
  1-4: destruct a; apply mg_other; cbn; intros [? ?]; discriminate.
  - destruct a; try (apply mg_other; cbn; intros [? ?]; discriminate). apply mg_arr.
  - destruct a as [| | | | |a]; try (apply mg_other; cbn; intros [? ?]; discriminate).
    rewrite deep_merge_obj. apply json_wf_obj in Wa as [Sa Wa]. apply json_wf_obj in Wb as [Sb Wb].
    rewrite Forall_forall in H, Wa, Wb.
    apply mg_obj.
    + apply merge_fold_sorted, Sa.
    + intros k x y Ga Gb. exists (json_deep_merge x y). rewrite merge_fold_get by (apply sorted_nodup, Sb). rewrite Ga, Gb.
      split; [reflexivity|]. apply obj_get_in in Ga, Gb. apply (H (k, y) Gb); [exact (Wa _ Ga) | exact (Wb _ Gb)].
    + intros k G. rewrite merge_fold_get by (apply sorted_nodup, Sb). rewrite G. reflexivity.
    + intros k G. rewrite merge_fold_get by (apply sorted_nodup, Sb). rewrite G. destruct (obj_get k m); reflexivity.
Qed.

Lemma deep_merge_wf : forall b a, json_wf a -> json_wf b -> json_wf (json_deep_merge a b).
Proof.
  induction b using json_ind'; intros a Wa Wb; destruct a as [| | | |l0|m0]; try exact Wb.
  - cbn [json_deep_merge]. rewrite json_wf_arr in *. apply Forall_app; split; assumption.
  - rewrite deep_merge_obj. apply json_wf_obj in Wa as [Sa Wa]. apply json_wf_obj in Wb as [Sb Wb].
    apply json_wf_obj. split; [apply merge_fold_sorted, Sa|]. rewrite Forall_forall in *.
    intros [k z] I. cbn.
    assert (NoDup (keys (fold_left (fun m kv => obj_insert (fst kv)
          (match obj_get (fst kv) m with Some x => json_deep_merge x (snd kv) | None => snd kv end) m) m m0))) as ND
      by (apply sorted_nodup, merge_fold_sorted, Sa).
    apply (obj_get_nodup _ _ _ _ ND) in I. rewrite merge_fold_get in I by (apply sorted_nodup, Sb).
    destruct (obj_get k m) as [y|] eqn:Gm.
    + destruct (obj_get k m0) as [x|] eqn:G0; injection I as <-; apply obj_get_in in Gm.
      * apply obj_get_in in G0. apply (H _ Gm); [exact (Wa _ G0) | exact (Wb _ Gm)].
      * exact (Wb _ Gm).
    + apply obj_get_in in I. exact (Wa _ I).
Qed.

Lemma deep_merge_idem : forall a, json_wf a -> array_free a -> json_deep_merge a a = a.
Proof.
  induction a using json_ind'; intros W AF; try reflexivity.
  - inversion AF as [? S| |]; subst; [destruct S|reflexivity].
  - rewrite deep_merge_obj. f_equal. apply json_wf_obj in W as [Sm W]. inversion AF as [? S| |? AM]; subst; [destruct S|].
    rewrite Forall_forall in H, W. apply sorted_ext.
    + apply merge_fold_sorted, Sm.
    + exact Sm.
    + intro k. rewrite merge_fold_get by (apply sorted_nodup, Sm).
      destruct (obj_get k m) as [x|] eqn:G; [|reflexivity]. apply obj_get_in in G. f_equal.
      apply (H (k, x) G); [exact (W _ G) | eapply AM, G].
Qed.
Lemma deep_merge_idem_iff : forall a, json_wf a -> (json_deep_merge a a = a <-> array_free a).
Proof.
  intros a W. split; [|apply deep_merge_idem, W]. revert W. induction a using json_ind'; intros W E; try (apply af_scalar; exact I).
  - cbn in E. assert (length (l ++ l) = length l) as L by (injection E as E; rewrite E; reflexivity).
    rewrite app_length in L. destruct l; [apply af_nil|cbn in L; lia].
  - rewrite deep_merge_obj in E. injection E as E. apply json_wf_obj in W as [Sm W]. rewrite Forall_forall in H, W. apply af_obj.
    intros k v I. apply (H (k, v) I (W _ I)). pose proof (obj_get_nodup _ _ _ _ (sorted_nodup _ Sm) I) as G.
    apply (f_equal (obj_get k)) in E. rewrite merge_fold_get in E by (apply sorted_nodup, Sm). rewrite G in E. injection E as E. exact E.
Qed.
Lemma deep_merge_empty_r : forall m, json_deep_merge (JObj m) (JObj []) = JObj m.
Proof. reflexivity. Qed.
Lemma deep_merge_empty_l : forall m, json_wf (JObj m) -> json_deep_merge (JObj []) (JObj m) = JObj m.
Proof.
  intros m W. rewrite deep_merge_obj. f_equal. apply json_wf_obj in W as [Sm _]. apply sorted_ext.
  - apply merge_fold_sorted. constructor.
  - exact Sm.
  - intro k. rewrite merge_fold_get by (apply sorted_nodup, Sm). cbn. destruct (obj_get k m); reflexivity.
Qed.
