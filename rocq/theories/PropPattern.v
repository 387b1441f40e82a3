(** Theorems about the patterns of the consumer DSL (C90: the example of a pattern). *)
From Coq Require Import Ascii String List Arith NArith ZArith Lia Bool Permutation Sorted.
From Verif Require Import Base PathExp PathExpProofs SpecPath PropPath Json MatchingRules SpecRules Matchers JsonCompare SpecMatch SpecValues
  CompareProofs CompareProofs2 CompareProofs3 SpecBody BodyProofs PropBody SpecVerifier PropStateChange PropBroker2 Pattern SpecPattern PatternProofs.
Import ListNotations.
Open Scope N_scope.
Local Opaque show_N.

(** * The rules of composite patterns *)
Lemma in_shift : forall t l u r, In (u, r) (shift t l) <-> exists v, u = t :: v /\ In (v, r) l.
Proof.
  intros t l u r. unfold shift. rewrite in_map_iff. split.
  - intros ([v x] & E & I). cbn in E. injection E as <- ->. exists v. split; [reflexivity|exact I].
  - intros (v & -> & I). exists (v, r). split; [reflexivity|exact I].
Qed.
Lemma rel_array_in : forall l t r, In (t, r) (rel (PArray l)) <->
  exists i x u, nth_error l i = Some x /\ t = TIndex (N.of_nat i) :: u /\ In (u, r) (rel x).
Proof.
  intros l t r. cbn [rel].
  assert (forall n, In (t, r) ((fix go (i : N) (l : list pattern) : list (list token * rule) :=
         match l with [] => [] | x :: l' => shift (TIndex i) (rel x) ++ go (i + 1) l' end) (N.of_nat n) l) <->
    exists i x u, nth_error l i = Some x /\ t = TIndex (N.of_nat (n + i)) :: u /\ In (u, r) (rel x)) as Z; [|exact (Z O)].
  induction l as [|x l IH]; intro n.
  - split; [intros []|]. intros ([|i] & x & u & E & _); discriminate E.
  - rewrite in_app_iff, in_shift. replace (N.of_nat n + 1) with (N.of_nat (S n)) by lia. rewrite IH. split.
    + intros [(v & -> & I)|(i & y & u & E & -> & I)].
      * exists O, x, v. rewrite Nat.add_0_r. split; [reflexivity|]. split; [reflexivity|exact I].
      * exists (S i), y, u. split; [exact E|]. split; [|exact I]. rewrite Nat.add_succ_r. reflexivity.
    + intros ([|i] & y & u & E & -> & I); cbn [nth_error] in E.
      * injection E as ->. left. exists u. rewrite Nat.add_0_r. split; [reflexivity|exact I].
      * right. exists i, y, u. split; [exact E|]. split; [|exact I]. rewrite Nat.add_succ_r. reflexivity.
Qed.
Lemma rel_object_in : forall fs t r, In (t, r) (rel (PObject fs)) <->
  exists k x u, In (k, x) fs /\ t = TField k :: u /\ In (u, r) (rel x).
Proof.
  intros fs t r. cbn [rel]. induction fs as [|[k x] fs IH].
  - split; [intros []|]. intros (k & x & u & [] & _).
  - rewrite in_app_iff, in_shift, IH. cbn [fst snd]. split.
    + intros [(v & -> & I)|(k' & y & u & E & -> & I)].
      * exists k, x, v. split; [left; reflexivity|]. split; [reflexivity|exact I].
      * exists k', y, u. split; [right; exact E|]. split; [reflexivity|exact I].
    + intros (k' & y & u & [E|E] & -> & I).
      * injection E as -> ->. left. exists u. split; [reflexivity|exact I].
      * right. exists k', y, u. split; [exact E|]. split; [reflexivity|exact I].
Qed.
Lemma rel_simple : forall p t r, In (t, r) (rel p) -> simple r.
Proof.
  induction p using pattern_ind'; intros t r I.
  - destruct I.
  - apply rel_array_in in I. destruct I as (i & x & u & E & _ & I). eapply H; [eapply nth_error_In, E|exact I].
  - apply rel_object_in in I. destruct I as (k & x & u & E & _ & I). eapply H; eassumption.
  - destruct I as [E|I]; [injection E as <- <-; exact Logic.I|eapply IHp, I].
  - destruct I as [E|[E|I]]; try (injection E as <- <-; exact Logic.I). apply in_shift in I. destruct I as (v & _ & I). eapply IHp, I.
  - destruct I as [E|[]]; injection E as <- <-; exact Logic.I.
  - destruct I as [E|[]]; injection E as <- <-; exact Logic.I.
  - destruct I.
Qed.

(** * Examples *)
Definition example_fields (fs : list (str * pattern)) : list (str * json) :=
  obj_of_list (map (fun kv => (fst kv, to_example (snd kv))) fs).
Lemma last_entry_in : forall A k (l : list (str * A)) v, last_entry k l = Some v -> In (k, v) l.
Proof.
  intros A k l v. induction l as [|[k' x] l IH]; cbn [last_entry]; [discriminate|]. destruct (last_entry k l) as [y|].
  - intro E. injection E as ->. right. apply IH. reflexivity.
  - destruct (str_eqb_spec k k') as [->|N]; [|discriminate]. intro E. injection E as ->. left; reflexivity.
Qed.
Lemma last_entry_nodup : forall A k (l : list (str * A)) v, NoDup (keys l) -> In (k, v) l -> last_entry k l = Some v.
Proof.
  intros A k l v. induction l as [|[k' x] l IH]; intros ND I; [destruct I|]. cbn [last_entry keys map fst] in *.
  inversion ND as [|? ? Nk ND']; subst. destruct I as [E|I].
  - injection E as -> ->. rewrite str_eqb_refl. destruct (last_entry k l) as [y|] eqn:E; [|reflexivity].
    exfalso. apply Nk. apply last_entry_in in E. change k with (fst (k, y)). apply in_map, E.
  - rewrite (IH ND' I). reflexivity.
Qed.
Lemma example_get : forall fs k v, NoDup (keys fs) ->
  (obj_get k (example_fields fs) = Some v <-> exists p, In (k, p) fs /\ v = to_example p).
Proof.
  intros fs k v ND. unfold example_fields. rewrite of_list_get.
  assert (keys (map (fun kv => (fst kv, to_example (snd kv))) fs) = keys fs) as K.
  { unfold keys. rewrite map_map. apply map_ext. reflexivity. }
  split.
  - intro E. apply last_entry_in in E. apply in_map_iff in E. destruct E as ([k' p] & E & I). cbn in E. injection E as -> <-.
    exists p. split; [exact I|reflexivity].
  - intros (p & I & ->). apply last_entry_nodup; [rewrite K; exact ND|]. change (k, to_example p) with ((fun kv => (fst kv, to_example (snd kv))) (k, p)).
    apply (in_map (fun kv : str * pattern => (fst kv, to_example (snd kv)))), I.
Qed.
Lemma example_sorted : forall fs, StronglySorted str_lt (keys (example_fields fs)).
Proof. intro fs. apply of_list_sorted. constructor. Qed.
Lemma example_wf : forall p, proper p -> json_wf (to_example p).
Proof.
  induction p using pattern_ind'; intro Pr; inversion Pr; subst; cbn [to_example]; try exact I; auto.
  - apply json_wf_arr. apply Forall_forall. intros x Ix. apply in_map_iff in Ix. destruct Ix as (q & <- & Iq). auto.
  - apply json_wf_obj. split; [apply example_sorted|]. apply Forall_forall. intros [k x] Ix. cbn [snd].
    assert (obj_get k (example_fields fs) = Some x) as E by (apply obj_get_nodup; [apply sorted_nodup, example_sorted|exact Ix]).
    apply example_get in E; [|assumption]. destruct E as (q & Iq & ->). apply (H k); [exact Iq|]. match goal with A : forall _ _, _ -> _ /\ proper _ |- _ => apply (A k q Iq) end.
  - apply json_wf_arr. apply Forall_forall. intros x Ix. apply repeat_spec in Ix. subst. auto.
Qed.

(** ** C90: the example of a pattern matches the rules of the pattern *)
(** The values inside a document, by the keys and indices on the way. *)
Inductive value_at : json -> list str -> json -> Prop :=
| va_here : forall j, value_at j [] j
| va_arr : forall l i x F v, nth_error l i = Some x -> value_at x F v -> value_at (JArr l) (show_N (N.of_nat i) :: F) v
| va_obj : forall m k x F v, obj_get k m = Some x -> value_at x F v -> value_at (JObj m) (token_display (part_token k) :: F) v.
Definition rule_holds (w : world) (r : rule) (cascaded : bool) (v : json) : Prop :=
  match r with
  | RType => True
  | RMinType n => cascaded = false -> exists l, v = JArr l /\ n <= len l
  | RRegex re => exists s, v = JStr s /\ regex_match w re s = Some true
  | RTimestamp f => exists s, v = JStr s /\ json_satisfies w (RTimestamp f) v
  | _ => False
  end.
Lemma rel_holds : forall w p, proper p -> exemplary w p -> forall t r F v, In (t, r) (rel p) -> accepts t F -> value_at (to_example p) F v ->
  rule_holds w r (Nat.ltb (length t) (length F)) v.
Proof.
  intro w. induction p using pattern_ind'; intros Pr Ex t r F v Ir A V; cbn [to_example] in V.
  - destruct Ir.
  - apply rel_array_in in Ir. destruct Ir as (i & x & u & E & -> & Ir). inversion A as [|? ? f F' St A']; subst.
    inversion V as [|? j y ? ? Ej Vy|]; subst. cbn [step_accepts] in St. apply (show_canonical (N.of_nat j)) in St. apply show_N_inj in St.
    apply Nnat.Nat2N.inj in St. subst j. rewrite nth_error_map, E in Ej. cbn [option_map] in Ej. injection Ej as <-.
    inversion Pr; inversion Ex; subst. apply nth_error_In in E. exact (H x E ltac:(auto) ltac:(auto) u r F' v Ir A' Vy).
  - apply rel_object_in in Ir. destruct Ir as (k & x & u & E & -> & Ir). inversion A as [|? ? f F' St A']; subst.
    inversion V as [| |? k' y ? ? Ey Vy]; subst. inversion Pr as [| |? ND Pf| | | |]; inversion Ex as [| |? Ef| | | |]; subst. cbn [step_accepts] in St.
    change (obj_get k' (example_fields fs) = Some y) in Ey. apply example_get in Ey; [|exact ND]. destruct Ey as (q & Iq & ->).
    rewrite (display_canonical k' (proj1 (Pf k' q Iq))) in St. subst k'.
    assert (q = x) as ->.
    { pose proof (last_entry_nodup _ k fs q ND Iq) as L1. pose proof (last_entry_nodup _ k fs x ND E) as L2. congruence. }
    exact (H k x E (proj2 (Pf k x E)) (Ef k x E) u r F' v Ir A' Vy).
  - inversion Pr; inversion Ex; subst. destruct Ir as [E|Ir]; [injection E as <- <-; exact I|]. eapply IHp; eassumption.
  - inversion Pr; inversion Ex; subst. destruct Ir as [E|[E|Ir]].
    + injection E as <- <-. cbn [rule_holds length]. intro Nc. apply Nat.ltb_ge in Nc. destruct F; [|cbn in Nc; lia]. inversion V; subst.
      eexists. split; [reflexivity|]. unfold len. rewrite repeat_length. lia.
    + injection E as <- <-. exact I.
    + apply in_shift in Ir. destruct Ir as (u & -> & Ir). inversion A as [|? ? f F' St A']; subst. inversion V as [|? j y ? ? Ej Vy|]; subst.
      apply nth_error_In, repeat_spec in Ej. subst y. assert (rule_holds w r (Nat.ltb (length u) (length F')) v) as Z by (eapply IHp; eassumption). exact Z.
  - destruct Ir as [E|[]]; injection E as <- <-. inversion Ex; subst. inversion V; subst. cbn. eauto.
  - destruct Ir as [E|[]]; injection E as <- <-. inversion Ex; subst. inversion V; subst. cbn [rule_holds]. eauto.
  - inversion Pr.
Qed.
Lemma self_matches : forall w c R, cat_name (matchers c) = CBody -> describes (cat_rules (matchers c)) R ->
  (forall t r, In (t, r) R -> simple r) ->
  forall v p F, json_wf v -> at_ p F ->
  (forall t r G x, In (t, r) R -> accepts t (F ++ G) -> value_at v G x -> rule_holds w r (Nat.ltb (length t) (length (F ++ G))) x) ->
  compare_json w p v v c = [].
Proof.
  intros w c R CB D Si.
  assert (SC : forall v p F, is_scalar v -> json_wf v -> at_ p F ->
    (forall t r G x, In (t, r) R -> accepts t (F ++ G) -> value_at v G x -> rule_holds w r (Nat.ltb (length t) (length (F ++ G))) x) ->
    compare_json w p v v c = []).
  { intros v p F Sc Wf At Gd. destruct (matcher_is_defined (matchers c) (to_vec p)) eqn:Df.
    - pose proof (select_in_force (matchers c) p CB Df) as Fo. destruct (force_found c R D p F _ At Fo) as (t & (Ac & Lg & NE & Sr & Cs) & _).
      apply (C14_body_scalar w c (bodyr c R CB D Si) p _ _ _ Fo Sc). split; [exact NE|]. unfold combined; rewrite Lg. intros r Ir.
      pose proof (proj1 (Sr r) Ir) as It. pose proof (Gd t r [] v It) as Z. rewrite app_nil_r in Z. specialize (Z Ac (va_here _)).
      destruct r; cbn [rule_holds] in Z; try contradiction; try reflexivity; destruct Z as (s0 & E & Z); subst v; exact Z.
    - apply defined_iff in Df; [|exact CB]. apply (scalar_none w c R CB D Si p _ _ Df Sc). destruct v; try contradiction; constructor.
      exact (json_eqb_refl (JNum n) Wf). }
  induction v using json_ind'; intros p F Wf At Gd; try (eapply SC; [exact I|eassumption..]).
  - assert (Wl := proj1 (json_wf_arr l) Wf). rewrite Forall_forall in Wl, H.
    assert (EL : forall i x, nth_error l i = Some x -> compare_json w (join p (show_N (N.of_nat i))) x x c = []).
    { intros i x E. apply (H x (nth_error_In _ _ E) _ (F ++ [show_N (N.of_nat i)])); [apply Wl; eapply nth_error_In, E|apply at_index, At|].
      intros t r G y It Ac Vy. rewrite <- app_assoc in Ac |- *. apply Gd; [exact It|exact Ac|]. cbn [app]. eapply va_arr; eassumption. }
    destruct (matcher_is_defined (matchers c) (to_vec p)) eqn:Df.
    + pose proof (select_in_force (matchers c) p CB Df) as Fo. destruct (force_found c R D p F _ At Fo) as (t & (Ac & Lg & NE & Sr & Cs) & _).
      apply (array_rules w c R CB D Si p _ l l Fo Lg NE); [intros r Ir; eapply Si, Sr, Ir|]. right. split.
      * intros r Ir. pose proof (proj1 (Sr r) Ir) as It. pose proof (Gd t r [] (JArr l) It) as Z. rewrite app_nil_r in Z. specialize (Z Ac (va_here _)).
        rewrite <- Cs in Z. destruct r; cbn [rule_holds] in Z; try contradiction; try exact I; cbn [array_satisfies size_allowed].
        -- intro Nc. destruct (Z Nc) as (l' & E & Le). injection E as <-. exact Le.
      * split.
        -- intros i x y Ex Ey. unfold nth_or_first in Ex. rewrite Ey in Ex. injection Ex as ->. apply EL, Ey.
        -- intros i [L1 L2]. lia.
    + apply defined_iff in Df; [|exact CB]. apply (array_none w c R CB D Si p l l Df). split; [reflexivity|]. intros i x y Ex Ey. rewrite Ex in Ey. injection Ey as <-. apply EL, Ex.
  - assert (Wm := proj1 (json_wf_obj m) Wf). destruct Wm as [So Wm]. rewrite Forall_forall in Wm, H.
    assert (EN : entries_match w c p m m).
    { intros k x y Ex Ey. rewrite Ex in Ey. injection Ey as <-. assert (In (k, x) m) as Ix by (apply obj_get_in, Ex). apply (H (k, x) Ix _ (F ++ [token_display (part_token k)])); [exact (Wm _ Ix)|apply at_join, At|].
      intros t r G y It Ac Vy. rewrite <- app_assoc in Ac |- *. apply Gd; [exact It|exact Ac|]. cbn [app]. eapply va_obj; eassumption. }
    assert (KM : keys_match c (keys m) (keys m)) by (split; auto).
    destruct (matcher_is_defined (matchers c) (to_vec p)) eqn:Df.
    + pose proof (select_in_force (matchers c) p CB Df) as Fo. destruct (force_found c R D p F _ At Fo) as (t & (Ac & Lg & NE & Sr & Cs) & _).
      apply (object_rules w c R CB D Si p _ m m Fo NE); [intros r Ir; eapply Si, Sr, Ir|exact So|exact So|]. split; [|split; assumption].
      intros r Ir. pose proof (proj1 (Sr r) Ir) as It. pose proof (Gd t r [] (JObj m) It) as Z. rewrite app_nil_r in Z. specialize (Z Ac (va_here _)).
      rewrite <- Cs in Z. destruct r; cbn [rule_holds] in Z; try contradiction; try exact I; cbn [object_satisfies size_allowed].
      * intro Nc. destruct (Z Nc) as (l' & E & _). discriminate.
      * destruct Z as (s0 & E & _). discriminate.
    + apply defined_iff in Df; [|exact CB]. apply (object_none w c R CB D Si p m m Df So So). split; assumption.
Qed.

Theorem C90_example_matches_own_rules : forall w p c extra,
  proper p -> exemplary w p -> rules_of_pattern p c ->
  compare_json w path_root (to_example p) (to_example p) (mkCtx extra c) = [].
Proof.
  intros w p c extra Pr Ex Rp. pose proof (pattern_describes p c Pr Rp) as D.
  apply (self_matches w (mkCtx extra c) (rel p) (proj1 Rp) D (rel_simple p) (to_example p) path_root []); [apply example_wf, Pr|reflexivity|].
  intros t r G x It Ac Vx. cbn [app] in *. eapply rel_holds; eassumption.
Qed.
