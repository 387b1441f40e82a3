(** Rules with value types and expressions in their definitions: what the JSON form forgets. *)
From Coq Require Import Ascii String List Arith NArith Lia Bool Permutation.
From Verif Require Import Base PathExp SpecPath Json MatchingRules SpecRules RulesProofs RulesProofs2 RulesProofs3.
Import ListNotations.
Open Scope N_scope.

Definition map_cat (f : rule -> rule) (c : category) : category :=
  mkCat (cat_name c) (map (fun pr => match pr with (p, rl) => (p, mkRules (map f (rl_rules rl)) (rl_logic rl) (rl_cascaded rl)) end) (cat_rules c)).
Definition map_item (f : rule -> rule) (x : rule + str) : rule + str := match x with inl r => inl (f r) | inr n => inr n end.
Fixpoint forget (r : rule) : rule :=
  match r with
  | RArrayContains vs => RArrayContains (map (fun v => match v with (i, c) => (i, map_cat forget c) end) vs)
  | REachKey d => REachKey (mkDef (def_value d) VUnknown (map (map_item forget) (def_rules d)) [])
  | REachValue d => REachValue (mkDef (def_value d) VUnknown (map (map_item forget) (def_rules d)) [])
  | r => r
  end.

Lemma map_ext_Forall : forall {A B} (f g : A -> B) l, Forall (fun x => f x = g x) l -> map f l = map g l.
Proof. intros A B f g l H. induction H as [|x l E H IH]; cbn; [reflexivity|]. rewrite E, IH. reflexivity. Qed.

Lemma cat_to_v3_forget : forall c, cat_all (fun r => rule_to_json (forget r) = rule_to_json r) c ->
  cat_to_v3_json rule_to_json (map_cat forget c) = cat_to_v3_json rule_to_json c.
Proof.
  intros [n l] H. unfold cat_to_v3_json, map_cat. cbn [cat_name cat_rules] in *. f_equal. unfold cat_all in H. cbn [cat_rules] in H.
  generalize (@nil (str * json)). induction H as [|[p rl] l E H IH]; intro acc; [reflexivity|]. cbn [map fold_left fst snd] in *.
  replace (rl_to_v3_json rule_to_json (mkRules (map forget (rl_rules rl)) (rl_logic rl) (rl_cascaded rl))) with (rl_to_v3_json rule_to_json rl); [apply IH|].
  unfold rl_to_v3_json. cbn [rl_rules rl_logic]. rewrite map_map. rewrite (map_ext_Forall _ _ _ E). reflexivity.
Qed.
Lemma to_json_forget : forall r, rule_to_json (forget r) = rule_to_json r.
Proof.
  refine (rule_ind' (fun r => rule_to_json (forget r) = rule_to_json r) _ _ _ _).
  - intro r. destruct r; try exact I; reflexivity.
  - intros vs H. cbn [forget rule_to_json]. do 4 f_equal. f_equal. rewrite map_map. apply map_ext_Forall.
    eapply Forall_impl; [|exact H]. intros [i c] E. cbn [snd] in E. rewrite (cat_to_v3_forget c E). reflexivity.
  - intros d H. cbn [forget rule_to_json]. unfold def_to_json. cbn [def_rules def_value]. rewrite map_map.
    rewrite (map_ext_Forall _ (fun x => match x with inl r => rule_to_json r | inr _ => JNull end) (def_rules d)); [reflexivity|].
    eapply Forall_impl; [|exact H]. intros [r|n] E; [exact E|reflexivity].
  - intros d H. cbn [forget rule_to_json]. unfold def_to_json. cbn [def_rules def_value]. rewrite map_map.
    rewrite (map_ext_Forall _ (fun x => match x with inl r => rule_to_json r | inr _ => JNull end) (def_rules d)); [reflexivity|].
    eapply Forall_impl; [|exact H]. intros [r|n] E; [exact E|reflexivity].
Qed.
Lemma forget_leaf : forall r, is_leaf r -> forget r = r.
Proof. intros [] L; try reflexivity; contradiction. Qed.
Lemma forall_resolved : forall f l, Forall is_resolved l -> Forall is_resolved (map (map_item f) l).
Proof. intros f l H. induction H as [|[r|n] l E H IH]; cbn [map map_item]; constructor; try assumption; exact I. Qed.
Lemma forget_writable : forall w r, readable w r -> writable w (forget r).
Proof.
  intros w. refine (rule_ind' (fun r => readable w r -> writable w (forget r)) _ _ _ _).
  - intro r. destruct r; try exact I; intro H; rewrite forget_leaf by exact I; inversion H; subst; try contradiction; constructor; assumption.
  - intros vs H W. inversion W as [? L|? Wh Wn| |]; subst; [contradiction|]. cbn [readable_here writable_here] in Wh. cbn [forget].
    apply ra_arr.
    + cbn [writable_here]. apply Forall_map. rewrite Forall_forall in *. intros [i c] I1. specialize (Wh _ I1). cbn [snd] in *.
      destruct Wh as (A & B & C). split; [exact A|]. unfold map_cat. cbn [cat_rules]. split.
      * unfold path_texts in *. rewrite map_map. erewrite map_ext; [exact B|]. intros [p rl]. reflexivity.
      * apply Forall_map. eapply Forall_impl; [|exact C]. intros [p rl] (E1 & E2 & E3). cbn [fst snd] in *.
        split; [exact E1|]. split; [exact E2|]. cbn [snd rl_rules] in *. destruct (rl_rules rl); [contradiction|discriminate].
    + apply Forall_map. rewrite Forall_forall in *. intros [i c] I1. specialize (H _ I1). specialize (Wn _ I1). cbn [snd] in *.
      unfold map_cat. cbn [cat_rules]. apply Forall_map. unfold cat_all in H. rewrite Forall_forall in *. intros [p rl] I2.
      specialize (H _ I2). specialize (Wn _ I2). cbn [snd rl_rules] in *. apply Forall_map. rewrite Forall_forall in *. intros x I3.
      apply (H _ I3). apply Wn, I3.
  - intros d H W. inversion W as [? L| |? Wh Wn|]; subst; [contradiction|]. cbn [readable_here forget] in *. apply ra_key.
    + cbn [writable_here def_type def_expr def_rules]. split; [reflexivity|]. split; [reflexivity|]. apply forall_resolved, Wh.
    + cbn [def_rules]. intros r I1. apply in_map_iff in I1. destruct I1 as ([x|n] & E & I1); [|discriminate]. cbn [map_item] in E. injection E as <-.
      unfold def_all in H. rewrite Forall_forall in H. apply (H _ I1). apply Wn, I1.
  - intros d H W. inversion W as [? L| | |? Wh Wn]; subst; [contradiction|]. cbn [readable_here forget] in *. apply ra_val.
    + cbn [writable_here def_type def_expr def_rules]. split; [reflexivity|]. split; [reflexivity|]. apply forall_resolved, Wh.
    + cbn [def_rules]. intros r I1. apply in_map_iff in I1. destruct I1 as ([x|n] & E & I1); [|discriminate]. cbn [map_item] in E. injection E as <-.
      unfold def_all in H. rewrite Forall_forall in H. apply (H _ I1). apply Wn, I1.
Qed.
Lemma items_come_back : forall l l', Forall (item_all (fun r => forall r', same_rule (forget r) r' -> comes_back r r')) l ->
  Forall2 (item_rel same_rule) (map (map_item forget) l) l' -> Forall2 (item_rel comes_back) l l'.
Proof.
  induction l as [|x l IH]; intros l' H F; cbn [map] in F; inversion F as [|? y ? l2 R F2]; subst; constructor.
  - inversion H; subst. destruct x as [r|n]; cbn [map_item item_all] in *; inversion R; subst; constructor. auto.
  - inversion H; subst. apply IH; assumption.
Qed.
Lemma forget_comes_back : forall r r', same_rule (forget r) r' -> comes_back r r'.
Proof.
  refine (rule_ind' (fun r => forall r', same_rule (forget r) r' -> comes_back r r') _ _ _ _).
  - intro r. destruct r; try exact I; intros r' H; inversion H; subst; constructor; exact I.
  - intros vs H r' S. cbn [forget] in S. inversion S as [? L|? vs' F| |]; subst; [contradiction|]. constructor. clear S.
    revert vs' F. induction H as [|[i c] vs E H IH]; intros vs' F; cbn [map] in F; inversion F as [|? v' ? l2 R F2]; subst; constructor; [|apply IH; exact F2].
    cbn [fst snd] in *. destruct R as (R1 & R2 & perm & P & R3). split; [exact R1|]. split; [exact R2|].
    unfold map_cat in P. cbn [cat_rules] in P.
    apply Permutation_sym in P. apply Permutation_map_inv in P. destruct P as (perm0 & -> & P0). exists perm0. split; [exact P0|].
    assert (E0 : Forall (fun pr => Forall (fun r => forall r', same_rule (forget r) r' -> comes_back r r') (rl_rules (snd pr))) perm0)
      by (apply (Permutation_Forall P0 E)). clear - E0 R3. revert R3. generalize (cat_rules (snd v')).
    induction E0 as [|[p rl] l E1 E0 IH]; intros l' R; cbn [map] in R; inversion R as [|? y ? l2 (A & B & C) R2]; subst; constructor; [|apply IH; exact R2].
    cbn [fst snd rl_logic rl_rules] in *. split; [exact A|]. split; [exact B|]. clear - E1 C. revert C. generalize (rl_rules (snd y)).
    induction E1 as [|x l E E1 IH]; intros l' C; cbn [map] in C; inversion C; subst; constructor; auto.
  - intros d H r' S. cbn [forget] in S. inversion S as [? L| |? d' A B C F|]; subst; [contradiction|]. cbn [def_value def_type def_expr def_rules] in *.
    constructor; try congruence. apply items_come_back; assumption.
  - intros d H r' S. cbn [forget] in S. inversion S as [? L| | |? d' A B C F]; subst; [contradiction|]. cbn [def_value def_type def_expr def_rules] in *.
    constructor; try congruence. apply items_come_back; assumption.
Qed.
Lemma rule_comes_back : forall w r, readable w r -> exists r', rule_from_json w (rule_to_json r) = Ok r' /\ comes_back r r'.
Proof.
  intros w r R. destruct (roundtrip_good w (forget r) (forget_writable w r R) (json_depth (rule_to_json (forget r))) (le_n _)) as (r' & E & S).
  exists r'. split; [|apply forget_comes_back, S]. unfold rule_from_json. rewrite <- (to_json_forget r). exact E.
Qed.
(** Writing aborts exactly on unresolved references. *)
Lemma existsb_false : forall A (f : A -> bool) l, existsb f l = false <-> forall x, In x l -> f x = false.
Proof.
  intros A f l. split.
  - intros H x I. destruct (f x) eqn:E; [|reflexivity]. exfalso. assert (existsb f l = true) by (apply existsb_exists; eauto). congruence.
  - intro H. destruct (existsb f l) eqn:E; [|reflexivity]. apply existsb_exists in E. destruct E as (x & I & E). rewrite H in E; [discriminate|exact I].
Qed.
Definition resolved_here (r : rule) : Prop :=
  match r with REachKey d | REachValue d => Forall is_resolved (def_rules d) | _ => True end.
Lemma has_unresolved_iff : forall r, has_unresolved r = false <-> rule_all resolved_here r.
Proof.
  refine (rule_ind' (fun r => has_unresolved r = false <-> rule_all resolved_here r) _ _ _ _).
  - intro r. destruct r; try exact I; (split; [intros _; constructor; exact I|reflexivity]).
  - intros vs H. cbn [has_unresolved]. rewrite existsb_false. rewrite Forall_forall in H. split.
    + intro U. apply ra_arr; [exact I|]. apply Forall_forall. intros [i c] I1. specialize (H _ I1). specialize (U _ I1). cbn [snd] in *.
      rewrite existsb_false in U. unfold cat_all in H. rewrite Forall_forall in H. apply Forall_forall. intros [p rl] I2.
      specialize (H _ I2). specialize (U _ I2). cbn [snd] in *. cbv beta iota in U. rewrite existsb_false in U. rewrite Forall_forall in H. apply Forall_forall.
      intros x I3. apply (H _ I3). apply U, I3.
    + intros W [i c] I1. inversion W as [? L|? Wh Wn| |]; subst; [contradiction|]. rewrite Forall_forall in Wn. specialize (Wn _ I1). specialize (H _ I1).
      cbn [snd] in *. apply existsb_false. intros [p rl] I2. unfold cat_all in H. rewrite Forall_forall in H, Wn. specialize (Wn _ I2). specialize (H _ I2).
      apply existsb_false. intros x I3. cbn [snd] in *. rewrite Forall_forall in H, Wn. apply (H _ I3). apply Wn, I3.
  - intros d H. cbn [has_unresolved]. rewrite existsb_false. unfold def_all in H. rewrite Forall_forall in H. split.
    + intro U. apply ra_key.
      * cbn [resolved_here]. apply Forall_forall. intros [x|n] I1; [exact I|]. specialize (U _ I1). discriminate.
      * intros x I1. apply (H _ I1). apply (U _ I1).
    + intros W [x|n] I1; inversion W as [? L| |? Wh Wn|]; subst; try contradiction.
      * apply (H _ I1). apply Wn, I1.
      * cbn [resolved_here] in Wh. rewrite Forall_forall in Wh. destruct (Wh _ I1).
  - intros d H. cbn [has_unresolved]. rewrite existsb_false. unfold def_all in H. rewrite Forall_forall in H. split.
    + intro U. apply ra_val.
      * cbn [resolved_here]. apply Forall_forall. intros [x|n] I1; [exact I|]. specialize (U _ I1). discriminate.
      * intros x I1. apply (H _ I1). apply (U _ I1).
    + intros W [x|n] I1; inversion W as [? L| | |? Wh Wn]; subst; try contradiction.
      * apply (H _ I1). apply Wn, I1.
      * cbn [resolved_here] in Wh. rewrite Forall_forall in Wh. destruct (Wh _ I1).
Qed.
