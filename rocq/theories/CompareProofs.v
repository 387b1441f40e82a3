(** Proofs about JSON body comparison. *)
From Coq Require Import Ascii String List Arith NArith ZArith Lia Bool Sorted Permutation.
From Verif Require Import Base PathExp Json MatchingRules RulesProofs Matchers JsonCompare SpecMatch.
Import ListNotations.
Open Scope N_scope.
Local Opaque show_N.

(** * Recursion *)
Definition child (x e : json) : Prop :=
  match e with
  | JArr l => In x l
  | JObj m => exists k, In (k, x) m
  | _ => False
  end.
Lemma child_depth : forall x e, child x e -> (json_depth x < json_depth e)%nat.
Proof.
  intros x e C. destruct e; cbn [child] in C; try contradiction.
  - apply depth_arr, C.
  - destruct C as [k C]. eapply depth_obj, C.
Qed.
Lemma depth_pos : forall e, (0 < json_depth e)%nat.
Proof. destruct e; cbn; lia. Qed.

Lemma F2_length : forall A B (R : A -> B -> Prop) l l', Forall2 R l l' -> length l = length l'.
Proof. induction 1; cbn; congruence. Qed.
Lemma flat_map_ext_in : forall A B (f g : A -> list B) l,
  (forall x, In x l -> f x = g x) -> flat_map f l = flat_map g l.
Proof. induction l; cbn; intros H; [reflexivity|]. rewrite H, IHl; auto. Qed.
Lemma map_ext_in' : forall A B (f g : A -> B) l, (forall x, In x l -> f x = g x) -> map f l = map g l.
Proof. intros; apply map_ext_in; assumption. Qed.

Section Ext.
Variable w : world.
Variable T : Type.
Variable eqb : T -> T -> bool.
Variables cb1 cb2 : docpath -> T -> T -> context -> list mismatch.

Lemma entries_ext : forall p e a c,
  (forall k x, In (k, x) e -> forall q y c, cb1 q x y c = cb2 q x y c) ->
  compare_entries T cb1 p e a c = compare_entries T cb2 p e a c.
Proof.
  intros p e a c H. unfold compare_entries. apply flat_map_ext_in. intros [k x] I. cbn.
  destruct (obj_get k a); [|reflexivity]. eapply H, I.
Qed.

Lemma map_rule_ext : forall r casc p e a c,
  (forall k x, In (k, x) e -> forall q y c, cb1 q x y c = cb2 q x y c) ->
  compare_maps_with_matchingrule w T eqb clone_with cb1 r casc p e a c = compare_maps_with_matchingrule w T eqb clone_with cb2 r casc p e a c.
Proof.
  intros r casc p e a c H. unfold compare_maps_with_matchingrule.
  destruct (negb casc && is_values_matcher r).
  - f_equal. apply flat_map_ext_in. intros [k y] _. cbn. destruct (obj_get k e) eqn:G.
    + apply obj_get_in in G. eapply H, G.
    + destruct e as [|[k0 f] e]; [reflexivity|]. apply (H k0). left; reflexivity.
  - f_equal. f_equal. apply entries_ext, H.
Qed.

Lemma elements_ext : forall p c e a i,
  (forall x, In x e -> forall q y c, cb1 q x y c = cb2 q x y c) ->
  match_elements T cb1 p c i e a = match_elements T cb2 p c i e a.
Proof.
  induction e as [|x e IH]; intros a i H; [reflexivity|]. cbn.
  destruct a as [|y a]; rewrite IH by (intros; apply H; right; assumption); [reflexivity|].
  rewrite H by (left; reflexivity). reflexivity.
Qed.

Lemma pad_in : forall (e : list T) n x, In x (pad_expected T e n) -> In x e.
Proof.
  intros e n x I. destruct e as [|f e]; [exact I|]. unfold pad_expected in I.
  apply in_app_or in I as [I|I]; [exact I|]. apply repeat_spec in I. subst. left; reflexivity.
Qed.

Lemma contents_ext : forall p e a c,
  (forall x, In x e -> forall q y c, cb1 q x y c = cb2 q x y c) ->
  match_list_contents T cb1 p e a c = match_list_contents T cb2 p e a c.
Proof.
  intros p e a c H. unfold match_list_contents. apply elements_ext. intros x I. apply H. eapply pad_in, I.
Qed.

Lemma variant_ext : forall p e a c v,
  (forall x, In x e -> forall q y c, cb1 q x y c = cb2 q x y c) ->
  match_variant T clone_with cb1 p e a c v = match_variant T clone_with cb2 p e a c v.
Proof.
  intros p e a c v H. unfold match_variant. destruct (nth_error e _) eqn:N; [|reflexivity].
  apply nth_error_In in N.
  assert (existsb (fun y => match cb1 path_root t y (clone_with c (snd v)) with [] => true | _ => false end) a
        = existsb (fun y => match cb2 path_root t y (clone_with c (snd v)) with [] => true | _ => false end) a) as ->; [|reflexivity].
  induction a as [|y a IH]; [reflexivity|]. cbn. rewrite H by exact N. rewrite IH. reflexivity.
Qed.

Lemma list_rule_ext : forall r p e a c casc,
  (forall x, In x e -> forall q y c, cb1 q x y c = cb2 q x y c) ->
  compare_lists_with_matchingrule T eqb clone_with cb1 r p e a c casc = compare_lists_with_matchingrule T eqb clone_with cb2 r p e a c casc.
Proof.
  intros r p e a c casc H. unfold compare_lists_with_matchingrule.
  destruct e as [|f e]; [reflexivity|].
  destruct r; try (f_equal; apply contents_ext, H).
  - apply flat_map_ext_in. intros v _. apply variant_ext, H.
  - destruct casc; [reflexivity|]. f_equal. apply contents_ext, H.
Qed.

Lemma list_rules_ext : forall p rl e a c,
  (forall x, In x e -> forall q y c, cb1 q x y c = cb2 q x y c) ->
  compare_lists_with_matchingrules T eqb clone_with cb1 p rl e a c = compare_lists_with_matchingrules T eqb clone_with cb2 p rl e a c.
Proof.
  intros p rl e a c H. unfold compare_lists_with_matchingrules.
  destruct (rl_is_empty rl); [reflexivity|].
  assert (map (fun r => compare_lists_with_matchingrule T eqb clone_with cb1 r p e a c (rl_cascaded rl)) (rl_rules rl) =
          map (fun r => compare_lists_with_matchingrule T eqb clone_with cb2 r p e a c (rl_cascaded rl)) (rl_rules rl)) as ->; [|reflexivity].
  apply map_ext. intro r. apply list_rule_ext, H.
Qed.
End Ext.

Lemma step_ext : forall w cb1 cb2 p e a c,
  (forall x, child x e -> forall q y c, cb1 q x y c = cb2 q x y c) ->
  compare_step w cb1 p e a c = compare_step w cb2 p e a c.
Proof.
  intros w cb1 cb2 p e a c H. unfold compare_step. destruct e; try reflexivity.
  - destruct a; try reflexivity. unfold compare_lists, compare_list_content.
    rewrite (list_rules_ext _ _ cb1 cb2), (elements_ext _ cb1 cb2) by exact H. reflexivity.
  - destruct a; try reflexivity. unfold compare_maps.
    assert (forall k x, In (k, x) m -> forall q y c, cb1 q x y c = cb2 q x y c) as H'
      by (intros k x I; apply H; exists k; exact I).
    rewrite (entries_ext _ cb1 cb2) by exact H'.
    destruct (negb (nonempty m) && negb (allow c) && nonempty m0); [reflexivity|].
    destruct (ctx_matcher_is_defined c p); [|reflexivity].
    apply flat_map_ext_in. intros r _. apply map_rule_ext, H'.
Qed.

(** Any fuel from the depth on gives the same result. *)
Lemma fuel_enough : forall w n m e p a c, (json_depth e <= n)%nat -> (json_depth e <= m)%nat ->
  compare_fuel w n p e a c = compare_fuel w m p e a c.
Proof.
  intro w. induction n as [|n IH]; intros m e p a c Hn Hm; pose proof (depth_pos e); [lia|].
  destruct m as [|m]; [lia|]. cbn. apply step_ext. intros x C q y d. apply child_depth in C. apply IH; lia.
Qed.
Theorem compare_unfold : forall w p e a c, compare_json w p e a c = compare_step w (compare_json w) p e a c.
Proof.
  intros w p e a c. unfold compare_json at 1. pose proof (depth_pos e).
  destruct (json_depth e) as [|n] eqn:D; [lia|]. cbn. apply step_ext.
  intros x C q y d. apply child_depth in C. unfold compare_json. apply fuel_enough; lia.
Qed.

(** * Without rules *)
Lemma no_rules_undefined : forall c p, no_rules c -> ctx_matcher_is_defined c p = false.
Proof.
  intros c p H. unfold ctx_matcher_is_defined, matcher_is_defined, resolve_matchers_for_path, cat_is_empty, cat_filter.
  unfold no_rules in H. destruct (cat_name (matchers c)); cbn; rewrite H; reflexivity.
Qed.
Lemma no_rules_exact : forall c p, no_rules c -> cat_rules (matchers_for_exact_path c p) = [].
Proof.
  intros c p H. unfold matchers_for_exact_path, cat_filter. unfold no_rules in H.
  destruct (cat_name (matchers c)); cbn; rewrite H; reflexivity.
Qed.
Lemma str_in_iff : forall k l, str_in k l = true <-> In k l.
Proof.
  intros k l. unfold str_in. rewrite existsb_exists. split.
  - intros [x [I E]]. apply str_eqb_eq in E. subst. exact I.
  - intro I. exists k. split; [exact I | apply str_eqb_refl].
Qed.
Lemma missing_keys_nil : forall e a, missing_keys e a = [] <-> (forall k, In k e -> In k a).
Proof.
  intros e a. unfold missing_keys. induction e as [|k e IH]; cbn; [split; [intros _ k []|reflexivity]|].
  destruct (str_in k a) eqn:E; cbn.
  - rewrite IH. apply str_in_iff in E. split; intros H x.
    + intros [->|I]; auto.
    + intro I. apply H. right; exact I.
  - split; [discriminate|]. intro H. assert (str_in k a = true) by (apply str_in_iff, H; left; reflexivity). congruence.
Qed.
Lemma keys_eqb : forall a b : list str, list_eqb str_eqb a b = true <-> a = b.
Proof.
  induction a as [|x a IH]; destruct b as [|y b]; cbn; split; try congruence.
  - rewrite andb_true_iff, str_eqb_eq, IH. intros [-> ->]. reflexivity.
  - intro E. injection E as -> ->. rewrite str_eqb_refl. cbn. apply IH. reflexivity.
Qed.
Lemma sorted_keys_eq : forall a b, StronglySorted str_lt a -> StronglySorted str_lt b ->
  (forall k, In k a <-> In k b) -> a = b.
Proof.
  intros a b Sa Sb E.
  assert (forall l, keys (map (fun k : str => (k, tt)) l) = l) as KM by (induction l as [|x l IH]; cbn; f_equal; auto).
  assert (map (fun k : str => (k, tt)) a = map (fun k => (k, tt)) b) as Em.
  { apply sorted_ext; rewrite ?KM; try assumption. intro k.
    destruct (obj_get k (map (fun k : str => (k, tt)) a)) as [[]|] eqn:A.
    - apply obj_get_in in A. apply (in_map fst) in A. change (In k (keys (map (fun k : str => (k, tt)) a))) in A. rewrite KM in A.
      apply E in A. rewrite <- KM in A. apply obj_get_some_in in A as [[] A]. symmetry. exact A.
    - apply obj_get_none in A. rewrite KM in A. symmetry. apply obj_get_none. rewrite KM. intro I. apply A, E, I. }
  rewrite <- (KM a), <- (KM b). rewrite Em. reflexivity.
Qed.
Lemma obj_get_keys : forall A (m : list (str * A)) k, In k (keys m) <-> exists v, obj_get k m = Some v.
Proof.
  intros A m k. split; [apply obj_get_some_in|]. intros [v G]. apply obj_get_in in G. apply (in_map fst) in G. exact G.
Qed.

Lemma flat_map_nil : forall A B (f : A -> list B) l, flat_map f l = [] <-> (forall x, In x l -> f x = []).
Proof.
  induction l as [|x l IH]; cbn; split; intro H; auto.
  - intros y [].
  - apply app_eq_nil in H as [H1 H2]. intros y [->|I]; [exact H1 | apply IH; assumption].
  - rewrite H by (left; reflexivity). apply IH. intros y I. apply H. right; exact I.
Qed.

(** The key check without rules. *)
Lemma match_keys_no_rules : forall w c p e a, no_rules c ->
  match_keys w c p e a = [] <->
  if allow c then (forall k, In k e -> In k a) else e = a.
Proof.
  intros w c p e a H. unfold match_keys, direct_entry_matcher, direct_any_matcher, as_rule_list, cat_is_empty.
  rewrite (no_rules_exact c p H). cbn. rewrite app_nil_r.
  destruct (allow c).
  - rewrite <- missing_keys_nil. destruct (missing_keys e a); split; congruence.
  - rewrite <- keys_eqb. destruct (list_eqb str_eqb e a); split; congruence.
Qed.

Lemma entries_nil : forall (cb : docpath -> json -> json -> context -> list mismatch) p e a c, NoDup (keys e) ->
  compare_entries json cb p e a c = [] <->
  (forall k v v', obj_get k e = Some v -> obj_get k a = Some v' -> cb (join p k) v v' c = []).
Proof.
  intros cb p e a c ND. unfold compare_entries. rewrite flat_map_nil. split.
  - intros H k v v' Ge Ga. apply obj_get_in in Ge. specialize (H _ Ge). cbn in H. rewrite Ga in H. exact H.
  - intros H [k v] I. cbn. destruct (obj_get k a) eqn:Ga; [|reflexivity].
    apply (H k); [|exact Ga]. apply obj_get_nodup; assumption.
Qed.

Lemma elements_same : forall (cb : docpath -> json -> json -> context -> list mismatch) (R : json -> json -> Prop) p c e a i,
  Forall2 (fun x y => forall q, cb q x y c = [] <-> R x y) e a ->
  match_elements json cb p c i e a = [] <-> Forall2 R e a.
Proof.
  intros cb R p c e a i F. revert i. induction F as [|x y e a H F IH]; intro i; cbn [match_elements].
  - split; [constructor | reflexivity].
  - split; intro E.
    + apply app_eq_nil in E as [E1 E2]. constructor; [eapply H, E1 | eapply IH, E2].
    + inversion E; subst. assert (cb (join p (show_N i)) x y c = []) as -> by (apply H; assumption).
      cbn [app]. apply IH. assumption.
Qed.

Lemma scalar_eqb : forall e a, is_scalar e -> json_eqb e a = true <-> same_scalar e a.
Proof.
  intros e a S. split; intro H.
  - destruct e, a; cbn in S, H; try contradiction; try discriminate.
    + constructor.
    + destruct b, b0; cbn in H; try discriminate; constructor.
    + constructor. exact H.
    + apply str_eqb_eq in H. subst. constructor.
  - destruct H; cbn; auto using str_eqb_refl. destruct b; reflexivity.
Qed.
Lemma same_scalar_scalar : forall e a, same_scalar e a -> is_scalar e.
Proof. destruct 1; exact I. Qed.

Lemma json_eqb_arr : forall x y, json_eqb (JArr x) (JArr y) = list_eqb json_eqb x y.
Proof. induction x as [|u x IH]; destruct y as [|v y]; try reflexivity; cbn [list_eqb]; rewrite <- IH; reflexivity. Qed.
Lemma json_eqb_obj : forall x y, json_eqb (JObj x) (JObj y) =
  list_eqb (fun a b => str_eqb (fst a) (fst b) && json_eqb (snd a) (snd b)) x y.
Proof. induction x as [|[k u] x IH]; destruct y as [|[k' v] y]; try reflexivity; cbn [list_eqb]; rewrite <- IH; reflexivity. Qed.

(** Without rules a comparison accepts exactly the documents that agree. *)
Theorem compare_no_rules : forall w c, no_rules c -> forall e a p, json_wf e -> json_wf a ->
  compare_json w p e a c = [] <-> agrees (allow c) e a.
Proof.
  intros w c NR. induction e using json_ind'; intros a p We Wa; rewrite compare_unfold.
  1-4: cbn [compare_step]; unfold compare_values; rewrite (no_rules_undefined c p NR); cbn [json_matches];
    match goal with |- context [json_eqb ?e ?a] =>
      pose proof (scalar_eqb e a I) as SE; destruct (json_eqb e a);
      [split; [intros _; constructor; apply SE; reflexivity | reflexivity]
      | split; [discriminate | intro G; inversion G; subst; apply SE in H; discriminate]] end.
  - cbn [compare_step]. destruct a as [| | | |a|]; try (split; [discriminate | intro G; inversion G as [? ? S| |]; inversion S]).
    unfold compare_lists. rewrite (no_rules_undefined c p NR).
    assert (Forall2 (fun x y => forall p, compare_json w p x y c = [] <-> agrees (allow c) x y) l a \/ length l <> length a) as FA.
    { apply json_wf_arr in We, Wa. clear p. revert a Wa. induction l as [|x l IH]; intros [|y a] Wa.
      - left; constructor.
      - right; discriminate.
      - right; discriminate.
      - inversion H; inversion We; inversion Wa; subst. destruct (IH H3 H7 a H11) as [F|F].
        + left. constructor; [|exact F]. intro p. apply H2; assumption.
        + right. cbn. lia. }
    assert (Forall2 (agrees (allow c)) l a -> length l = length a) as FL by apply F2_length.
    assert (agrees (allow c) (JArr l) (JArr a) <-> Forall2 (agrees (allow c)) l a) as AA.
    { split; [|apply ag_arr]. intro G; inversion G as [? ? S| |]; subst; [inversion S | assumption]. }
    rewrite AA. destruct FA as [FA|FA].
    + assert (length l = length a) as L by (eapply F2_length, FA).
      assert (negb (nonempty l) && nonempty a = false) as ->
        by (destruct l, a; cbn in L |- *; congruence).
      rewrite L, Nat.eqb_refl, app_nil_r. unfold compare_list_content.
      apply elements_same, FA.
    + split; [|intro G; apply FL in G; contradiction].
      destruct (negb (nonempty l) && nonempty a); [discriminate|].
      intro E. apply app_eq_nil in E as [_ E]. apply Nat.eqb_neq in FA. rewrite FA in E. discriminate.
  - cbn [compare_step]. destruct a as [| | | | |a]; try (split; [discriminate | intro G; inversion G as [? ? S| |]; inversion S]).
    unfold compare_maps. rewrite (no_rules_undefined c p NR).
    apply json_wf_obj in We as [Se We]. apply json_wf_obj in Wa as [Sa Wa].
    rewrite Forall_forall in H, We, Wa.
    assert (compare_entries json (compare_json w) p m a c = [] <->
            (forall k v v', obj_get k m = Some v -> obj_get k a = Some v' -> agrees (allow c) v v')) as EN.
    { rewrite entries_nil by (apply sorted_nodup, Se). split; intros G k v v' Ge Ga; specialize (G k v v' Ge Ga);
        apply obj_get_in in Ge, Ga; (eapply (H (k, v)); [exact Ge | exact (We _ Ge) | exact (Wa _ Ga) | exact G]). }
    assert (agrees (allow c) (JObj m) (JObj a) <->
      (forall k v, obj_get k m = Some v -> exists v', obj_get k a = Some v' /\ agrees (allow c) v v') /\
      (allow c = false -> forall k, obj_get k m = None -> obj_get k a = None)) as AO.
    { split; [intro G; inversion G as [? ? S| |]; subst; [inversion S | split; assumption]|]. intros [A B]. constructor; assumption. }
    rewrite AO. clear AO.
    destruct (negb (nonempty m) && negb (allow c) && nonempty a) eqn:EM.
    + split; [discriminate|]. intros [_ B]. apply andb_true_iff in EM as [EM N2]. apply andb_true_iff in EM as [N0 N1].
      destruct m; [|discriminate]. destruct (allow c); [discriminate|]. destruct a as [|[k v] a]; [discriminate|].
      specialize (B eq_refl k eq_refl). cbn in B. rewrite str_eqb_refl in B. discriminate.
    + split.
      * intro E. apply app_eq_nil in E as [E1 E2]. pose proof (proj1 EN E2) as E3. apply match_keys_no_rules in E1; [|exact NR].
        destruct (allow c) eqn:AL.
        -- split; [|discriminate]. intros k v G.
           assert (In k (keys a)) as I by (apply E1, obj_get_keys; eauto).
           apply obj_get_keys in I as [v' G']. eauto.
        -- split.
           ++ intros k v G. assert (In k (keys a)) as I by (rewrite <- E1; apply obj_get_keys; eauto).
              apply obj_get_keys in I as [v' G']. eauto.
           ++ intros _ k G. apply obj_get_none in G. apply obj_get_none. rewrite <- E1. exact G.
      * intros [A B]. assert (match_keys w c p (keys m) (keys a) = []) as ->.
        { apply match_keys_no_rules; [exact NR|]. 
          assert (forall k, In k (keys m) -> In k (keys a)) as S1.
          { intros k I. apply obj_get_keys in I as [v G]. apply A in G as [v' [G _]]. apply obj_get_keys. eauto. }
          destruct (allow c); [exact S1|]. apply sorted_keys_eq; try assumption. intro k. split; [apply S1|].
          intro I. destruct (obj_get k m) eqn:G; [apply obj_get_keys; eauto|]. apply (B eq_refl) in G.
          apply obj_get_none in G. contradiction. }
        cbn [app]. apply (proj2 EN). intros k v v' Ge Ga. apply A in Ge as [v2 [Ga2 Ag]]. congruence.
Qed.

(** Agreement without extra entries is equality of documents. *)
Theorem agrees_eqb : forall e a, json_wf e -> json_wf a -> agrees false e a <-> json_eqb e a = true.
Proof.
  induction e using json_ind'; intros a We Wa.
  1-4: rewrite scalar_eqb by exact I; split; [intro G; inversion G; subst; assumption | apply ag_scalar].
  - destruct a as [| | | |a|]; try (split; [intro G; inversion G as [? ? S| |]; inversion S | discriminate]).
    rewrite json_eqb_arr. apply json_wf_arr in We, Wa.
    assert (agrees false (JArr l) (JArr a) <-> Forall2 (agrees false) l a) as ->.
    { split; [|apply ag_arr]. intro G; inversion G as [? ? S| |]; subst; [inversion S | assumption]. }
    revert a Wa. induction l as [|x l IH]; intros [|y a] Wa; cbn.
    + split; [reflexivity | constructor].
    + split; [intro G; inversion G | discriminate].
    + split; [intro G; inversion G | discriminate].
    + inversion H; inversion We; inversion Wa; subst. rewrite andb_true_iff.
      split; [intro G; inversion G; subst | intros [G1 G2]; constructor].
      * split; [apply H2; assumption | apply IH; assumption].
      * apply H2; assumption.
      * apply IH; assumption.
  - destruct a as [| | | | |a]; try (split; [intro G; inversion G as [? ? S| |]; inversion S | discriminate]).
    rewrite json_eqb_obj. apply json_wf_obj in We as [Se We]. apply json_wf_obj in Wa as [Sa Wa].
    assert (agrees false (JObj m) (JObj a) <->
      keys m = keys a /\ (forall k v v', obj_get k m = Some v -> obj_get k a = Some v' -> agrees false v v')) as ->.
    { split.
      - intro G; inversion G as [? ? S| |? ? A B]; subst; [inversion S|]. split.
        + apply sorted_keys_eq; try assumption. intro k. split; intro I.
          * apply obj_get_keys in I as [v I]. apply A in I as [v' [I _]]. apply obj_get_keys. eauto.
          * destruct (obj_get k m) eqn:E; [apply obj_get_keys; eauto|]. apply (B eq_refl) in E. apply obj_get_none in E. contradiction.
        + intros k v v' Gm Ga. apply A in Gm as [v2 [Ga2 Ag]]. congruence.
      - intros [K A]. apply ag_obj.
        + intros k v G. assert (In k (keys a)) as I by (rewrite <- K; apply obj_get_keys; eauto).
          apply obj_get_keys in I as [v' I]. eauto.
        + intros _ k G. apply obj_get_none. rewrite <- K. apply obj_get_none, G. }
    apply sorted_nodup in Se, Sa. revert a Wa Sa. induction m as [|[k x] m IH]; intros [|[k' y] a] Wa Sa.
    + split; [reflexivity | intros _; split; [reflexivity | intros ? ? ? G; discriminate]].
    + split; [intros [G _]; discriminate | discriminate].
    + split; [intros [G _]; discriminate | discriminate].
    + inversion H as [|? ? H2 H3]; inversion We as [|? ? W1 H7]; inversion Wa as [|? ? V1 H11];
        inversion Se as [|? ? H15 H16]; inversion Sa as [|? ? H19 H20]; subst. cbn [list_eqb fst snd keys map].
      rewrite !andb_true_iff, str_eqb_eq. specialize (IH H3 H16 H7 a H11 H20). split.
      * intros [K A]. injection K as -> K. repeat split.
        -- apply (H2 y); try assumption. apply (A k'); cbn; rewrite str_eqb_refl; reflexivity.
        -- apply IH. split; [exact K|]. intros j v v' G1 G2. apply (A j).
           ++ cbn. destruct (str_eqb_spec j k') as [->|]; [|exact G1]. exfalso. apply H15. apply obj_get_keys. eauto.
           ++ cbn. destruct (str_eqb_spec j k') as [->|]; [|exact G2]. exfalso. apply H19. apply obj_get_keys. eauto.
      * intros [[-> E] R]. apply IH in R as [K A]. split; [unfold keys in K |- *; cbn; f_equal; exact K|].
        intros j v v'. cbn. destruct (str_eqb j k'); [|apply A]. intros G1 G2. injection G1 as <-. injection G2 as <-.
        apply (H2 y); assumption.
Qed.
