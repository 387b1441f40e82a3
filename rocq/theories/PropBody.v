(** Property C67: JSON body matching under any set of rules; and, as consequences, C14, C15,
    C36, C38, C39, C45, C46 for any set of rules. *)
From Coq Require Import Ascii String List Arith NArith ZArith Lia Bool Sorted Permutation.
From Verif Require Import Base PathExp SpecPath PropPath Json MatchingRules SpecRules RulesProofs PropRules
  Matchers JsonCompare SpecMatch CompareProofs CompareProofs2 CompareProofs3 PropMatch SpecValues PropValues SpecBody BodyProofs.
Import ListNotations.
Open Scope N_scope.
Local Opaque show_N.

(** ** C67 *)
Theorem C67_body_matching : forall w c p e a, body_rules (matchers c) ->
  (compare_json w p e a c = [] <-> conforms w c p e a).
Proof. intros w c p e a B. apply all_good, B. Qed.

(** Whatever rule set is read from a pact file, its body category is such a rule set. *)
Section Reading.
Variable w : world.
Notation ok := (rule_all body_here).
Definition rules_ok (c : category) : Prop := forall e r, In e (cat_rules c) -> In r (rl_rules (snd e)) -> ok r.
Lemma push_ok : forall k r l m, ok r -> (forall e x, In e m -> In x (rl_rules (snd e)) -> ok x) ->
  forall e x, In e (hm_push k r l m) -> In x (rl_rules (snd e)) -> ok x.
Proof.
  intros k r l m R H. induction m as [|[k' rl] m IH]; cbn [hm_push].
  - intros e x [<-|[]] I. cbn in I. destruct I as [<-|[]]. exact R.
  - destruct (path_eqb k k').
    + intros e x [<-|Ie] I.
      * cbn [snd rl_rules] in I. apply in_app_or in I. destruct I as [I|[<-|[]]]; [|exact R]. apply (H (k', rl) x (or_introl eq_refl) I).
      * apply (H e x (or_intror Ie) I).
    + intros e x [<-|Ie] I; [apply (H (k', rl) x (or_introl eq_refl) I)|]. eapply IH; [|exact Ie|exact I]. intros e' x' Ie'. apply H. right; exact Ie'.
Qed.
Lemma foldM_inv : forall A B E (P : B -> Prop) (f : B -> A -> outcome B E), (forall b x b', P b -> f b x = Ok b' -> P b') ->
  forall l b b', P b -> foldM f l b = Ok b' -> P b'.
Proof.
  intros A B E P f H. induction l as [|x l IH]; intros b b' Pb F; cbn [foldM] in F; [injection F as <-; exact Pb|].
  unfold bind in F. destruct (f b x) eqn:Fx; try discriminate. eapply IH; [|exact F]. eapply H; eassumption.
Qed.
Lemma mapM_all : forall A B E (P : B -> Prop) (f : A -> outcome B E), (forall x y, f x = Ok y -> P y) ->
  forall l l', mapM f l = Ok l' -> Forall P l'.
Proof.
  intros A B E P f H. induction l as [|x l IH]; intros l' F; cbn [mapM] in F; [injection F as <-; constructor|].
  unfold bind in F. destruct (f x) eqn:Fx; try discriminate. destruct (mapM f l) eqn:Fl; try discriminate. injection F as <-.
  constructor; [eapply H, Fx|apply IH; reflexivity].
Qed.
Section With.
Variable rj : json -> outcome rule rule_error.
Hypothesis RJ : forall j r, rj j = Ok r -> ok r.
Notation good_cat n := (fun c => cat_name c = n /\ rules_ok c).
Lemma cat_rule_ok : forall n k l c j c', cat_name c = n /\ rules_ok c -> cat_rule_from_json rj k l c j = Ok c' -> cat_name c' = n /\ rules_ok c'.
Proof.
  intros n k l c j c' [N R] F. unfold cat_rule_from_json, bind in F. destruct (rj j) eqn:J; try discriminate. injection F as <-.
  split; [exact N|]. intros e x. apply push_ok; [eapply RJ, J|exact R].
Qed.
Lemma add_list_ok : forall n c k v c', cat_name c = n /\ rules_ok c -> add_rule_list w rj c k v = Ok c' -> cat_name c' = n /\ rules_ok c'.
Proof.
  intros n c k v c' H F. unfold add_rule_list in F. destruct (json_get (S_ "matchers") v) as [[| | | |l|]|]; try (injection F as <-; exact H).
  revert F. apply (foldM_inv _ _ _ (fun c => cat_name c = n /\ rules_ok c)); [|exact H]. intros b x b' Pb E. eapply cat_rule_ok; eassumption.
Qed.
Lemma add_rules_ok : forall n c v c', cat_name c = n /\ rules_ok c -> add_rules_from_json w rj c v = Ok c' -> cat_name c' = n /\ rules_ok c'.
Proof.
  intros n c v c' H F. unfold add_rules_from_json in F. destruct (_ && _); [eapply add_list_ok; eassumption|].
  destruct v; try (injection F as <-; exact H). destruct (obj_has _ _); [eapply add_list_ok; eassumption|].
  revert F. apply (foldM_inv _ _ _ (fun c => cat_name c = n /\ rules_ok c)); [|exact H]. intros b x b' Pb E. unfold bind in E. destruct (path_new_w w (fst x)); try discriminate.
  eapply add_list_ok; eassumption.
Qed.
Lemma add_v3_ok : forall n c v c', cat_name c = n /\ rules_ok c -> add_v3_rules_from_json w rj c v = Ok c' -> cat_name c' = n /\ rules_ok c'.
Proof.
  intros n c v c' H F. unfold add_v3_rules_from_json in F. destruct (_ && _); [eapply add_list_ok; eassumption|].
  destruct v; try discriminate. destruct (obj_has _ _); [eapply add_list_ok; eassumption|]. destruct (_ || _).
  - revert F. apply (foldM_inv _ _ _ (fun c => cat_name c = n /\ rules_ok c)); [|exact H]. intros b x b' Pb E. eapply add_list_ok; eassumption.
  - revert F. apply (foldM_inv _ _ _ (fun c => cat_name c = n /\ rules_ok c)); [|exact H]. intros b x b' Pb E. unfold bind in E. destruct (path_new_w w (fst x)); try discriminate.
    eapply add_list_ok; eassumption.
Qed.
Lemma empty_ok : forall n, cat_name (cat_empty n) = n /\ rules_ok (cat_empty n).
Proof. intro n. split; [reflexivity|]. intros e r []. Qed.
Lemma variant_ok : forall v ic, variant_from_json w rj v = Ok ic -> cat_name (snd ic) = CBody /\ rules_ok (snd ic).
Proof.
  intros v ic F. unfold variant_from_json, bind in F. destruct (json_get (S_ "rules") v).
  - destruct (add_rules_from_json _ _ _ _) eqn:A; try discriminate. injection F as <-. cbn [snd]. eapply add_rules_ok; [apply empty_ok|exact A].
  - injection F as <-. split; [reflexivity|]. intros e r [<-|[]] [<-|[]]. constructor; exact I.
Qed.
Lemma def_ok : forall m d, def_from_json w rj m = Ok d -> forall r, In (inl r) (def_rules d) -> ok r.
Proof.
  intros m d F r Ir. unfold def_from_json, rules_from_json, bind in F. destruct (obj_get (S_ "rules") m) as [[| | | |l|]|]; try discriminate.
  - destruct (mapM rj l) eqn:M; try discriminate. injection F as <-. cbn [def_rules] in Ir. apply in_map_iff in Ir. destruct Ir as (x & E & Ix).
    injection E as ->. apply (mapM_all _ _ _ ok rj RJ) in M. rewrite Forall_forall in M. apply M, Ix.
  - injection F as <-. destruct Ir.
Qed.
Lemma create_ok : forall ty m r, rule_create w rj ty m = Ok r -> ok r.
Proof.
  intros ty m r. unfold rule_create, req, option_map.
  repeat match goal with |- (if ?b then _ else _) = _ -> _ => destruct b end; intro F;
    repeat match type of F with
    | match obj_get _ _ with _ => _ end = _ => destruct (obj_get _ _)
    | match json_to_num ?x with _ => _ end = _ => destruct (json_to_num x)
    | match (match obj_get ?k ?m with _ => _ end) with _ => _ end = _ => destruct (obj_get k m)
    end; try discriminate; try (injection F as <-; constructor; exact I).
  - destruct j; try discriminate. unfold bind in F. destruct (mapM _ _) eqn:M; try discriminate. injection F as <-.
    apply (mapM_all _ _ _ (fun ic => cat_name (snd ic) = CBody /\ rules_ok (snd ic))) in M; [|intros; eapply variant_ok; eassumption].
    apply ra_arr.
    + cbn [body_here]. eapply Forall_impl; [|exact M]. intros ic H. apply H.
    + eapply Forall_impl; [|exact M]. intros ic [_ H]. apply Forall_forall. intros e Ie. apply Forall_forall. intros x Ix. eapply H; eassumption.
  - destruct (status_from_json j); try discriminate. injection F as <-. constructor; exact I.
  - unfold bind in F. destruct (def_from_json _ _ _) eqn:D; try discriminate. injection F as <-. apply ra_key; [exact I|]. eapply def_ok, D.
  - unfold bind in F. destruct (def_from_json _ _ _) eqn:D; try discriminate. injection F as <-. apply ra_val; [exact I|]. eapply def_ok, D.
Qed.
Lemma from_with_ok : forall j r, from_json_with w rj j = Ok r -> ok r.
Proof.
  intros j r F. unfold from_json_with in F. destruct j; try discriminate.
  destruct (match obj_get (S_ "match") m with Some v => Some v | None => obj_get (S_ "pact:matcher:type") m end); [eapply create_ok, F|].
  repeat match type of F with
  | match obj_get ?k ?m with _ => _ end = _ => destruct (obj_get k m)
  | match json_to_num ?x with _ => _ end = _ => destruct (json_to_num x)
  end; try discriminate; injection F as <-; constructor; exact I.
Qed.
End With.
Lemma fuel_ok : forall n j r, rule_from_json_fuel w n j = Ok r -> ok r.
Proof. induction n as [|n IH]; intros j r F; [discriminate|]. eapply from_with_ok; [exact IH|exact F]. Qed.
Definition all_ok (m : matching_rules) : Prop := Forall (fun nc => cat_name (snd nc) = fst nc /\ rules_ok (snd nc)) m.
Lemma update_ok : forall n f, (forall c c', cat_name c = n /\ rules_ok c -> f c = Ok c' -> cat_name c' = n /\ rules_ok c') ->
  forall m m', all_ok m -> mr_update n f m = Ok m' -> all_ok m'.
Proof.
  intros n f H. induction m as [|[n' c] m IH]; intros m' A F; cbn [mr_update] in F; unfold bind in F.
  - destruct (f (cat_empty n)) eqn:E; try discriminate. injection F as <-. constructor; [|constructor]. cbn [fst snd]. eapply H; [apply empty_ok|exact E].
  - inversion A as [|? ? A1 A2]; subst. destruct (cat_eqb n n') eqn:Q.
    + destruct (f c) eqn:E; try discriminate. injection F as <-. constructor; [|exact A2]. cbn [fst snd] in *.
      assert (n = n') as -> by (destruct n, n'; try discriminate; reflexivity). eapply H; [exact A1|exact E].
    + destruct (mr_update n f m) eqn:E; try discriminate. injection F as <-. constructor; [exact A1|]. eapply IH; [exact A2|reflexivity].
Qed.
Lemma v2_ok : forall m n p r m', all_ok m -> add_v2_rule w m n p r = Ok m' -> all_ok m'.
Proof.
  intros m n p r m' A F. unfold add_v2_rule in F. revert F. apply update_ok; [|exact A]. intros c c' H E.
  eapply cat_rule_ok; [|exact H|exact E]. intros j x. apply fuel_ok.
Qed.
Theorem C67_rules_read_are_body_rules : forall v m c, matchers_from_json w v = Ok m -> In (CBody, c) m -> body_rules c.
Proof.
  intros v m c F Ic. assert (all_ok m) as A.
  { unfold matchers_from_json in F. destruct v as [[| | | | |o]|]; try (injection F as <-; constructor).
    destruct (starts_with _ _).
    - revert F. apply (foldM_inv _ _ _ all_ok); [|constructor]. intros b [key x] b' Pb E. unfold load_v2_entry in E.
      repeat match type of E with
      | (if ?b then _ else _) = _ => destruct b
      | bind ?o _ = _ => unfold bind in E at 1; let P := fresh "P" in destruct o eqn:P; try discriminate E
      | match field_names ?p with _ => _ end = _ => destruct (field_names p) as [|? [|? ?]]; try discriminate E
      end; try (eapply v2_ok; eassumption).
    - revert F. apply (foldM_inv _ _ _ all_ok); [|constructor]. intros b [key x] b' Pb E. revert E. apply update_ok; [|exact Pb].
      intros c0 c' H E. eapply add_v3_ok; [|exact H|exact E]. intros j r0. apply fuel_ok. }
  unfold all_ok in A. rewrite Forall_forall in A. specialize (A _ Ic). cbn [fst snd] in A. exact A.
Qed.
End Reading.

Section Consequences.
Variable w : world.
Variable c : context.
Hypothesis B : body_rules (matchers c).

(** ** C14 in a body: the rules in force at the location, combined by AND or OR *)
Theorem C14_body_scalar : forall p rl e a, in_force (matchers c) p rl -> is_scalar e ->
  (compare_json w p e a c = [] <->
   rl_rules rl <> [] /\ combined (rl_logic rl) (rl_rules rl) (fun r => scalar_satisfies w r e a)).
Proof.
  intros p rl e a F Sc. rewrite (C67_body_matching w c p e a B). split.
  - intro H. inversion H as [? ? ? ? _ N _|? ? ? ? rl' _ F' NE H'| | | | |]; subst; try contradiction.
    + exfalso. exact (no_rule_vs_force _ _ _ (proj1 B) N F).
    + rewrite (in_force_same _ _ _ _ (proj1 B) F F') in *. split; assumption.
  - intros [NE H]. eapply cf_scalar_rules; eassumption.
Qed.
Theorem C14_body_array : forall p rl e a, in_force (matchers c) p rl ->
  (compare_json w p (JArr e) (JArr a) c = [] <->
   rl_rules rl <> [] /\ combined (rl_logic rl) (rl_rules rl) (fun r => array_rule w c p (rl_cascaded rl) r e a)).
Proof.
  intros p rl e a F. rewrite (C67_body_matching w c _ _ _ B). split.
  - intro H. inversion H as [? ? ? ? Sc|? ? ? ? ? Sc| | |? ? ? ? N|? ? ? ? rl' F' NE L H'|? ? ? ? rl' r F' L I H']; subst; try contradiction.
    + exfalso. exact (no_rule_vs_force _ _ _ (proj1 B) N F).
    + rewrite (in_force_same _ _ _ _ (proj1 B) F F') in *. split; [exact NE|]. unfold combined. rewrite L. exact H'.
    + rewrite (in_force_same _ _ _ _ (proj1 B) F F') in *. split; [intro E; rewrite E in I; destruct I|]. unfold combined. rewrite L. eauto.
  - intros [NE H]. unfold combined in H. destruct (rl_logic rl) eqn:L.
    + eapply cf_array_and; eassumption.
    + destruct H as (r & I & H). eapply cf_array_or; eassumption.
Qed.
(** On an object every rule of the list has to hold, whatever the combination asked for. *)
Theorem C14_body_object : forall p rl e a, in_force (matchers c) p rl ->
  (compare_json w p (JObj e) (JObj a) c = [] <->
   (e = [] -> allow c = false -> a = []) /\
   forall r, In r (rl_rules rl) -> object_rule w c p (rl_cascaded rl) r e a).
Proof.
  intros p rl e a F. rewrite (C67_body_matching w c _ _ _ B). split.
  - intro H. inversion H as [? ? ? ? Sc|? ? ? ? ? Sc|? ? ? ? N|? ? ? ? rl' F' H1 H2| | |]; subst; try contradiction.
    + exfalso. exact (no_rule_vs_force _ _ _ (proj1 B) N F).
    + rewrite (in_force_same _ _ _ _ (proj1 B) F F') in *. split; assumption.
  - intros [H1 H2]. eapply cf_object_rules; eassumption.
Qed.

(** ** C15 in a body *)
Definition elements_match (p : docpath) (e a : list json) (c' : context) : Prop :=
  (forall i x y, nth_or_first e i = Some x -> nth_error a i = Some y -> compare_json w (join p (show_N (N.of_nat i))) x y c' = []) /\
  (forall i, (length a <= i < length e)%nat -> ~ no_rule_at (matchers c') (join p (show_N (N.of_nat i)))).
Lemma combined_one : forall lg r (P : rule -> Prop), combined lg [r] P <-> P r.
Proof.
  intros lg r P. unfold combined. destruct lg.
  - split; [intro H; apply H; left; reflexivity|intros H x [<-|[]]; exact H].
  - split; [intros (x & [<-|[]] & H); exact H|intro H; exists r; split; [left; reflexivity|exact H]].
Qed.
(** A sized type rule in force on an array bounds its length, except that it asks nothing when
    the expected array is empty. *)
Theorem C15_sized_rule_in_a_body : forall p r lg cs e a, type_rule r ->
  in_force (matchers c) p (mkRules [r] lg cs) ->
  (compare_json w p (JArr e) (JArr a) c = [] <->
   e = [] \/ ((cs = false -> size_allowed r (len a)) /\ elements_match p e a c)).
Proof.
  intros p r lg cs e a T F. rewrite (C14_body_array p _ e a F). cbn [rl_rules rl_logic rl_cascaded]. rewrite combined_one.
  assert (AS : array_satisfies r cs e a <-> (cs = false -> size_allowed r (len a))).
  { destruct r; try contradiction; cbn [array_satisfies size_allowed]; tauto. }
  split.
  - intros [_ H]. inversion H as [|? ? ? vs|? ? d|? ? d|? ? ? ? ? ? _ _ H1 H2 H3]; subst; try contradiction.
    + left; reflexivity.
    + right. split; [apply AS, H1|]. split; [|exact H3]. intros i x y E1 E2. apply C67_body_matching; [exact B|]. eapply H2; eassumption.
  - intros [->|[H1 [H2 H3]]]; (split; [discriminate|]); [apply ar_empty|]. apply ar_other.
    + intros vs ->. exact T.
    + intros d ->. exact T.
    + apply AS, H1.
    + intros i x y E1 E2. apply C67_body_matching; [exact B|]. eapply H2; eassumption.
    + exact H3.
Qed.

(** ** C36: array contains *)
Theorem C36_array_contains_each_variant : forall p vs lg cs e a, in_force (matchers c) p (mkRules [RArrayContains vs] lg cs) ->
  (compare_json w p (JArr e) (JArr a) c = [] <->
   e = [] \/ forall i rules, variant_of e vs i rules ->
     exists x y, nth_error e (N.to_nat i) = Some x /\ In y a /\ compare_json w path_root x y (mkCtx (allow c) rules) = []).
Proof.
  intros p vs lg cs e a F. rewrite (C14_body_array p _ e a F). cbn [rl_rules rl_logic rl_cascaded]. rewrite combined_one.
  assert (VB : forall i rules, variant_of e vs i rules -> body_rules rules).
  { intros i rules V. eapply variant_body; [|exact V]. destruct (in_force_rules _ _ _ (RArrayContains vs) F) as (x & Ix & Ir); [left; reflexivity|].
    eapply (proj2 B); eassumption. }
  split.
  - intros [_ H]. inversion H as [|? ? ? ? ? ? H'| | |? ? ? ? ? ? N1]; subst.
    + left; reflexivity.
    + right. intros i rules V. destruct (H' i rules V) as (x & y & Ex & Iy & C). exists x, y. split; [exact Ex|]. split; [exact Iy|].
      apply C67_body_matching; [apply (VB _ _ V)|exact C].
    + exfalso. eapply N1; reflexivity.
  - intro H. split; [discriminate|]. destruct H as [->|H]; [apply ar_empty|]. apply ar_contains. intros i rules V.
    destruct (H i rules V) as (x & y & Ex & Iy & C). exists x, y. split; [exact Ex|]. split; [exact Iy|].
    apply C67_body_matching in C; [exact C|apply (VB _ _ V)].
Qed.
Theorem C36_order_of_the_actual_array_is_irrelevant : forall p vs lg cs e a a',
  in_force (matchers c) p (mkRules [RArrayContains vs] lg cs) -> Permutation a a' ->
  (compare_json w p (JArr e) (JArr a) c = [] <-> compare_json w p (JArr e) (JArr a') c = []).
Proof.
  intros p vs lg cs e a a' F P. rewrite !(C36_array_contains_each_variant p vs lg cs) by exact F.
  split; (intros [H|H]; [left; exact H|right]); intros i rules V; destruct (H i rules V) as (x & y & Ex & Iy & C); exists x, y;
    (split; [exact Ex|]; split; [|exact C]).
  - exact (Permutation_in _ P Iy).
  - exact (Permutation_in _ (Permutation_sym P) Iy).
Qed.
(** Without variants: every expected element equals some actual one (an expected empty array inside
    is satisfied by any array). *)
Theorem C36_without_variants : forall p lg cs e a, in_force (matchers c) p (mkRules [RArrayContains []] lg cs) ->
  json_wf (JArr e) -> json_wf (JArr a) ->
  (compare_json w p (JArr e) (JArr a) c = [] <->
   forall x, In x e -> exists y, In y a /\ (json_eqb x y = true \/ (x = JArr [] /\ type_of y = TyArray))).
Proof.
  intros p lg cs e a F We Wa. rewrite (C36_array_contains_each_variant p [] lg cs) by exact F.
  apply json_wf_arr in We, Wa. rewrite Forall_forall in We, Wa.
  split.
  - intros [->|H] x Ix; [destruct Ix|]. apply In_nth_error in Ix. destruct Ix as [n En].
    assert (n < length e)%nat as L by (apply nth_error_Some; congruence).
    destruct (H (N.of_nat n) (cat_equality CBody)) as (x' & y & Ex & Iy & C).
    { split; [unfold len; lia|reflexivity]. }
    rewrite Nat2N.id, En in Ex. injection Ex as <-. exists y. split; [exact Iy|].
    apply eq_ctx in C; [tauto | reflexivity | eapply We, nth_error_In, En | apply Wa, Iy].
  - intro H. right. intros i rules [L ->]. unfold len in L.
    destruct (nth_error e (N.to_nat i)) as [x|] eqn:En; [|apply nth_error_None in En; lia].
    destruct (H x (nth_error_In _ _ En)) as [y [Iy D]]. exists x, y. split; [reflexivity|]. split; [exact Iy|].
    change (mkCat CBody [(path_empty, mkRules [REquality] And false)]) with (cat_equality CBody).
    apply eq_ctx; [reflexivity | eapply We, nth_error_In, En | apply Wa, Iy | tauto].
Qed.

(** ** C45: each-value and values rules *)
(** Each element (each value of an object) of the actual document conforms under the rules of the
    definition, which are in force for every entry, to the expected one at its place or else the first. *)
Theorem C45_each_value_on_arrays : forall p d lg e a, in_force (matchers c) p (mkRules [REachValue d] lg false) ->
  (compare_json w p (JArr e) (JArr a) c = [] <->
   e = [] \/ exists m, for_each_entry p d m /\ elements_match p e a (mkCtx (allow c) m)).
Proof.
  intros p d lg e a F. rewrite (C14_body_array p _ e a F). cbn [rl_rules rl_logic rl_cascaded]. rewrite combined_one.
  assert (BM : forall m, for_each_entry p d m -> body_rules m).
  { intros m E. pose proof (each_value_unique _ _ _ E) as ->. apply each_value_body.
    destruct (in_force_rules _ _ _ (REachValue d) F) as (x & Ix & Ir); [left; reflexivity|]. eapply (proj2 B); eassumption. }
  split.
  - intros [_ H]. inversion H as [| | |? ? ? m ? ? E H2 H3|? ? ? ? ? ? _ N2]; subst.
    + left; reflexivity.
    + right. exists m. split; [exact E|]. split; [|exact H3]. intros i x y E1 E2. apply C67_body_matching; [apply (BM _ E)|]. eapply H2; eassumption.
    + exfalso. eapply N2; reflexivity.
  - intros [->|(m & E & H2 & H3)]; (split; [discriminate|]); [apply ar_empty|]. eapply ar_each_value; [exact E| |exact H3].
    intros i x y E1 E2. specialize (H2 i x y E1 E2). apply C67_body_matching in H2; [exact H2|apply (BM _ E)].
Qed.
Theorem C45_each_value_on_objects : forall p d lg e a, in_force (matchers c) p (mkRules [REachValue d] lg false) ->
  (compare_json w p (JObj e) (JObj a) c = [] <->
   (e = [] -> allow c = false -> a = []) /\
   exists m, for_each_entry p d m /\
     forall k x y, In (k, y) a -> expected_entry e k x -> compare_json w (join p k) x y (mkCtx (allow c) m) = []).
Proof.
  intros p d lg e a F. rewrite (C14_body_object p _ e a F). cbn [rl_rules rl_logic rl_cascaded].
  assert (BM : forall m, for_each_entry p d m -> body_rules m).
  { intros m E. pose proof (each_value_unique _ _ _ E) as ->. apply each_value_body.
    destruct (in_force_rules _ _ _ (REachValue d) F) as (x & Ix & Ir); [left; reflexivity|]. eapply (proj2 B); eassumption. }
  split; intros [H0 H]; (split; [exact H0|]).
  - specialize (H _ (or_introl eq_refl)). inversion H as [|? ? ? m ? ? E H2|? ? ? ? ? ? Nv]; subst.
    + exists m. split; [exact E|]. intros k x y Iy X. apply C67_body_matching; [apply (BM _ E)|]. eapply H2; eassumption.
    + destruct Nv as [Nv|Nv]; [discriminate|]. exfalso. apply Nv. exact I.
  - intros r [<-|[]]. destruct H as (m & E & H). eapply or_each_value; [exact E|]. intros k x y Iy X.
    specialize (H k x y Iy X). apply C67_body_matching in H; [exact H|apply (BM _ E)].
Qed.
Theorem C45_values_rule_on_objects : forall p lg e a, in_force (matchers c) p (mkRules [RValues] lg false) ->
  (compare_json w p (JObj e) (JObj a) c = [] <->
   (e = [] -> allow c = false -> a = []) /\
   forall k x y, In (k, y) a -> expected_entry e k x -> compare_json w (join p k) x y c = []).
Proof.
  intros p lg e a F. rewrite (C14_body_object p _ e a F). cbn [rl_rules rl_logic rl_cascaded].
  split; intros [H0 H]; (split; [exact H0|]).
  - specialize (H _ (or_introl eq_refl)). inversion H as [? ? ? ? H2| |? ? ? ? ? ? Nv]; subst.
    + intros k x y Iy X. apply C67_body_matching; [exact B|]. eapply H2; eassumption.
    + destruct Nv as [Nv|Nv]; [discriminate|]. exfalso. apply Nv. exact I.
  - intros r [<-|[]]. apply or_values. intros k x y Iy X. specialize (H k x y Iy X). apply C67_body_matching in H; [exact H|exact B].
Qed.
(** The rules of an each-value definition are in force at every entry of a location. *)
Theorem C45_definition_in_force : forall p d m k, for_each_entry p d m -> concrete p -> (length (path_tokens p) < 63)%nat ->
  exists rs, map inl rs = def_rules d /\ in_force m (join p k) (mkRules rs And false).
Proof.
  intros p d m k (rs & -> & E) C L. exists rs. split; [exact E|].
  exists [], (join p (S_ "*"), mkRules rs And false), []. split; [reflexivity|]. split; [|split; [intros ? []|split; [intros ? []|]]].
  - split; [exact (star_accepts p k C)|]. cbn [fst]. pose proof (exact_steps_len (path_tokens (join p (S_ "*")))) as X. rewrite join_len in X. lia.
  - unfold applied. cbn [fst snd rl_rules rl_logic]. f_equal. rewrite vec_len, !join_len. symmetry. apply Nat.ltb_irrefl.
Qed.

(** ** C46: each-key *)
(** If the each-key rule is written for this location by the only rule path that is: which keys there are is
    free, but all satisfy the rules of the definition; the entries are compared as without it. *)
Theorem C46_each_key : forall p d lg e a, in_force (matchers c) p (mkRules [REachKey d] lg false) ->
  (forall x y, In x (cat_rules (matchers c)) -> In y (cat_rules (matchers c)) -> exactly_for p (fst x) -> exactly_for p (fst y) -> x = y) ->
  (compare_json w p (JObj e) (JObj a) c = [] <->
   (e = [] -> allow c = false -> a = []) /\
   (forall i, In i (def_rules d) -> exists r, i = inl r /\ forall k y, In (k, y) a -> str_matches w [] k r false = true) /\
   forall k x y, In (k, x) e -> obj_get k a = Some y -> compare_json w (join p k) x y c = []).
Proof.
  intros p d lg e a F U. rewrite (C14_body_object p _ e a F). cbn [rl_rules rl_logic rl_cascaded].
  assert (X : exists x, In x (cat_rules (matchers c)) /\ exactly_for p (fst x) /\ rl_rules (snd x) = [REachKey d]).
  { pose proof F as (b & x & t & Ec & C & _ & _ & Ap). exists x. split; [rewrite Ec; apply in_or_app; right; left; reflexivity|].
    unfold applied in Ap. injection Ap as A1 A2 A3. split; [|symmetry; exact A1]. split; [exact C|].
    symmetry in A3. apply Nat.ltb_ge in A3. rewrite vec_len in A3. destruct C as [C _]. apply accepts_len in C. rewrite vec_len in C. lia. }
  destruct X as (x0 & I0 & X0 & R0).
  assert (FW : first_written (matchers c) p (snd x0)).
  { apply in_split in I0. destruct I0 as (b & t & Ec). destruct x0 as [q0 rl0].
    (* the first of the entries written for the location *)
    assert (Q : exists b' x' t', cat_rules (matchers c) = b' ++ x' :: t' /\ exactly_for p (fst x') /\ forall y, In y b' -> ~ exactly_for p (fst y)).
    { clear - Ec X0 B. assert (I0 : In (q0, rl0) (cat_rules (matchers c))) by (rewrite Ec; apply in_or_app; right; left; reflexivity). clear Ec.
      induction (cat_rules (matchers c)) as [|y l IH]; [destruct I0|].
      destruct (matches_path_exactly (fst y) (to_vec p)) eqn:M.
      - exists [], y, l. split; [reflexivity|]. split; [apply exactly_iff, M|intros ? []].
      - destruct I0 as [->|I0]; [apply exactly_iff in X0; cbn [fst] in *; congruence|].
        destruct (IH I0) as (b' & x' & t' & -> & Xx & Nb). exists (y :: b'), x', t'. split; [reflexivity|]. split; [exact Xx|].
        intros u [<-|Iu]; [|apply Nb, Iu]. intro Z. apply exactly_iff in Z; congruence. }
    destruct Q as (b' & x' & t' & Ec' & Xx & Nb).
    assert (x' = (q0, rl0)) as ->.
    { apply U; try assumption; [rewrite Ec'|rewrite Ec]; apply in_or_app; right; left; reflexivity. }
    exists b', q0, t'. split; [exact Ec'|]. split; assumption. }
  assert (KO : keys_ok w c p (keys e) (keys a) <->
    (forall i, In i (def_rules d) -> exists r, i = inl r /\ forall k y, In (k, y) a -> str_matches w [] k r false = true)).
  { unfold keys_ok. split.
    - intros [_ H] i Ii. destruct (H x0 _ d I0 X0 F (or_introl eq_refl) i Ii) as (r & -> & K). exists r. split; [reflexivity|].
      intros k y Iy. apply K. exact (in_map fst _ _ Iy).
    - intro H. split.
      + left. exists (snd x0), (REachKey d). split; [exact FW|]. rewrite R0. split; [left; reflexivity|reflexivity].
      + intros x rl d' _ _ F' Id i Ii. rewrite (in_force_same _ _ _ _ (proj1 B) F F') in Id. destruct Id as [E|[]]. injection E as <-.
        destruct (H i Ii) as (r & -> & K). exists r. split; [reflexivity|]. intros k Ik. apply in_map_iff in Ik. destruct Ik as ([k' y] & <- & Iy). eapply K, Iy. }
  split; intros [H0 H]; (split; [exact H0|]).
  - specialize (H _ (or_introl eq_refl)). inversion H as [| |? ? ? ? ? ? _ _ H1 H2]; subst. split; [apply KO, H1|].
    intros k x y Ix Gy. apply C67_body_matching; [exact B|]. eapply H2; eassumption.
  - intros r [<-|[]]. destruct H as [H1 H2]. apply or_other; [right; intros []|exact I|apply KO, H1|].
    intros k x y Ix Gy. specialize (H2 k x y Ix Gy). apply C67_body_matching in H2; [exact H2|exact B].
Qed.
End Consequences.

(** ** C38: a type rule governs the whole sub-document *)
Definition below (p : docpath) (ks : list str) : docpath := fold_left join ks p.
(** The rule is in force at the location and at every location below it (where it is cascaded). *)
Definition governs (m : category) (p : docpath) (r : rule) (lg : logic) (cascaded : bool) : Prop :=
  forall ks, in_force m (below p ks) (mkRules [r] lg (match ks with [] => cascaded | _ => true end)).
Definition no_entry_rules (m : category) : Prop :=
  forall e x, In e (cat_rules m) -> In x (rl_rules (snd e)) -> entry_rule x = false.
Lemma governs_below : forall m p r lg cs k, governs m p r lg cs -> governs m (join p k) r lg true.
Proof. intros m p r lg cs k G ks. specialize (G (k :: ks)). destruct ks; exact G. Qed.

Theorem C38_type_rule_governs_the_sub_document : forall w c p r lg cs e a,
  body_rules (matchers c) -> type_rule r -> governs (matchers c) p r lg cs -> no_entry_rules (matchers c) ->
  json_wf e -> json_wf a ->
  (compare_json w p e a c = [] <-> shape (allow c) e a /\ (cs = false -> size_respected r e a)).
Proof.
  intros w c p r lg cs e a B T G NE We Wa. revert p cs a G We Wa.
  assert (SCAL : forall e, is_scalar e -> forall p cs a, governs (matchers c) p r lg cs ->
    (compare_json w p e a c = [] <-> shape (allow c) e a /\ (cs = false -> size_respected r e a))).
  { intros e0 Sc p cs a G. rewrite (C14_body_scalar w c B p _ e0 a (G []) Sc). cbn [rl_rules rl_logic]. rewrite combined_one.
    assert (scalar_satisfies w r e0 a <-> type_of e0 = type_of a) as -> by (destruct r; try contradiction; reflexivity).
    split.
    - intros [_ E]. split; [apply sh_scalar; assumption|]. intros _. destruct e0; try contradiction; exact I.
    - intros [H _]. split; [discriminate|]. inversion H; subst; try contradiction. assumption. }
  induction e using json_ind'; intros p cs a G We Wa; try (apply SCAL; [exact I|exact G]).
  - destruct a as [| | | |a|]; try (rewrite (C67_body_matching w c _ _ _ B); split;
      [intro X; exfalso; revert X; apply mismatched_type; [intros []|discriminate] | intros [X _]; inversion X; subst; contradiction]).
    rewrite (C15_sized_rule_in_a_body w c B p r lg cs l a T (G [])).
    apply json_wf_arr in We, Wa. rewrite Forall_forall in H, We, Wa.
    assert (shape (allow c) (JArr l) (JArr a) <->
      (forall i x y, nth_or_first l i = Some x -> nth_error a i = Some y -> shape (allow c) x y)) as ->.
    { split; [|apply sh_arr]. intro Z; inversion Z as [? ? S _| |]; subst; [inversion S | assumption]. }
    assert (NI : forall i x, nth_or_first l i = Some x -> In x l).
    { intros i x E. unfold nth_or_first in E. destruct (nth_error l i) eqn:N; [injection E as <-; eapply nth_error_In, N|].
      destruct l; [discriminate|]. injection E as <-. left; reflexivity. }
    split.
    + intros [->|[H1 [H2 H3]]].
      * split; [intros [|i] x y E; discriminate E|intros _; exact I].
      * split.
        -- intros i x y Ex Ey. specialize (H2 i x y Ex Ey). apply (H x (NI _ _ Ex) _ true) in H2; [exact (proj1 H2)|eapply governs_below, G|apply We, (NI _ _ Ex)|apply Wa; eapply nth_error_In, Ey].
        -- intro E. specialize (H1 E). destruct l; [exact I|exact H1].
    + intros [H1 H2]. destruct l as [|f l]; [left; reflexivity|right]. split; [exact H2|]. split.
      * intros i x y Ex Ey. apply (H x (NI _ _ Ex) _ true); [eapply governs_below, G|apply We, (NI _ _ Ex)|apply Wa; eapply nth_error_In, Ey|].
        split; [eapply H1; eassumption|discriminate].
      * intros i _ N. exact (no_rule_vs_force _ _ _ (proj1 B) N (G [_])).
  - destruct a as [| | | | |a]; try (rewrite (C67_body_matching w c _ _ _ B); split;
      [intro X; exfalso; revert X; apply mismatched_type; [intros []|discriminate] | intros [X _]; inversion X; subst; contradiction]).
    rewrite (C14_body_object w c B p _ m a (G [])). cbn [rl_rules rl_cascaded].
    apply json_wf_obj in We as [Se We]. apply json_wf_obj in Wa as [Sa Wa]. rewrite Forall_forall in H, We, Wa.
    assert (shape (allow c) (JObj m) (JObj a) <->
      (forall k v, obj_get k m = Some v -> exists v', obj_get k a = Some v' /\ shape (allow c) v v') /\
      (allow c = false -> forall k, obj_get k m = None -> obj_get k a = None)) as ->.
    { split; [intro Z; inversion Z as [? ? S _| |]; subst; [inversion S | split; assumption]|]. intros [P Q]. apply sh_obj; assumption. }
    assert (OS : object_satisfies r cs m a <-> (cs = false -> size_respected r (JObj m) (JObj a))).
    { destruct r; try contradiction; cbn [object_satisfies size_respected size_allowed]; tauto. }
    assert (KO : keys_ok w c p (keys m) (keys a) <-> if allow c then forall k, In k (keys m) -> In k (keys a) else keys m = keys a).
    { unfold keys_ok. split.
      - intros [[(rl & x & (b & q & t & Ec & _) & Ix & Ex)|K] _]; [|exact K]. exfalso.
        assert (In (q, rl) (cat_rules (matchers c))) as Iq by (rewrite Ec; apply in_or_app; right; left; reflexivity).
        rewrite (NE _ _ Iq Ix) in Ex. discriminate.
      - intro K. split; [right; exact K|]. intros x rl d _ _ F Id. exfalso. destruct (in_force_rules _ _ _ _ F Id) as (y & Iy & Iy2).
        specialize (NE _ _ Iy Iy2). discriminate. }
    assert (EN : (forall k x y, In (k, x) m -> obj_get k a = Some y -> compare_json w (join p k) x y c = []) <->
                 (forall k x y, obj_get k m = Some x -> obj_get k a = Some y -> shape (allow c) x y)).
    { split; intros Z k x y Ix Gy.
      - apply obj_get_in in Ix. specialize (Z k x y Ix Gy). apply (H (k, x) Ix _ true) in Z;
          [exact (proj1 Z)|eapply governs_below, G|exact (We _ Ix)|apply obj_get_in in Gy; exact (Wa _ Gy)].
      - apply (H (k, x) Ix _ true); [eapply governs_below, G|exact (We _ Ix)|apply obj_get_in in Gy; exact (Wa _ Gy)|].
        split; [|discriminate]. eapply Z; [|exact Gy]. apply obj_get_nodup; [apply sorted_nodup, Se|exact Ix]. }
    assert (OR : object_rule w c p cs r m a <-> object_satisfies r cs m a /\ keys_ok w c p (keys m) (keys a) /\
                 (forall k x y, In (k, x) m -> obj_get k a = Some y -> compare_json w (join p k) x y c = [])).
    { split.
      - intro Z. inversion Z as [| |? ? ? ? ? ? _ Z1 Z2 Z3]; subst; try contradiction. split; [exact Z1|]. split; [exact Z2|].
        intros k x y Ix Gy. apply C67_body_matching; [exact B|]. eapply Z3; eassumption.
      - intros (Z1 & Z2 & Z3). apply or_other; [right; destruct r; try contradiction; intros []|exact Z1|exact Z2|].
        intros k x y Ix Gy. specialize (Z3 k x y Ix Gy). apply C67_body_matching in Z3; [exact Z3|exact B]. }
    assert (KI : forall k (l : list (str * json)), In k (keys l) <-> obj_get k l <> None).
    { intros k l. split.
      - intros Ik N. apply obj_get_keys in Ik. destruct Ik as [v Ev]. congruence.
      - intro N. destruct (obj_get k l) eqn:Eg; [|congruence]. apply obj_get_keys. eauto. }
    split.
    + intros [_ Z]. specialize (Z r (or_introl eq_refl)). apply OR in Z. destruct Z as (Z1 & Z2 & Z3). split; [|apply OS, Z1].
      apply KO in Z2. rewrite EN in Z3. split.
      * intros k v Gv. assert (obj_get k a <> None) as Na.
        { apply KI. destruct (allow c); [apply Z2|rewrite <- Z2]; apply KI; congruence. }
        destruct (obj_get k a) as [v'|] eqn:Ga; [|congruence]. exists v'. split; [reflexivity|]. eapply Z3; eassumption.
      * intros Al k Gk. rewrite Al in Z2. destruct (obj_get k a) eqn:Ga; [|reflexivity]. exfalso.
        assert (In k (keys a)) as Ik by (apply KI; congruence). rewrite <- Z2 in Ik. apply KI in Ik. congruence.
    + intros [[Z1 Z2] Z3]. split.
      * intros -> Al. destruct a as [|[k v] a]; [reflexivity|]. specialize (Z2 Al k eq_refl). cbn in Z2. rewrite str_eqb_refl in Z2. discriminate.
      * intros x [<-|[]]. apply OR. split; [apply OS, Z3|]. split.
        -- apply KO. destruct (allow c) eqn:Al.
           ++ intros k Ik. apply KI in Ik. destruct (obj_get k m) as [v|] eqn:Gv; [|congruence]. destruct (Z1 k v Gv) as (v' & Ga & _). apply KI. congruence.
           ++ apply sorted_keys_eq; [exact Se|exact Sa|]. intro k. rewrite !KI. split; intros N1 N2.
              ** destruct (obj_get k m) as [v|] eqn:Gv; [|congruence]. destruct (Z1 k v Gv) as (v' & Ga & _). congruence.
              ** apply N1. apply (Z2 eq_refl k). exact N2.
        -- apply EN. intros k x y Gx Gy. destruct (Z1 k x Gx) as (v' & Ga & S). rewrite Gy in Ga. injection Ga as <-. exact S.
Qed.
(** For instance when it is the only rule of the body. *)
Theorem C38_only_rule_governs : forall c q r lg cs p, type_rule r -> only_rule c q (mkRules [r] lg cs) ->
  (exact_steps (path_tokens q) < 64)%nat -> matching_path (to_vec p) q ->
  body_rules (matchers c) /\ no_entry_rules (matchers c) /\
  governs (matchers c) p r lg (Nat.ltb (length (path_tokens q)) (length (path_tokens p))).
Proof.
  intros c q r lg cs p T [Nm Ru] L M. split; [|split].
  - split; [exact Nm|]. rewrite Ru. intros e x [<-|[]] [<-|[]]. destruct r; try contradiction; constructor; exact I.
  - intros e x Ie. rewrite Ru in Ie. destruct Ie as [<-|[]]. intros [<-|[]]. destruct r; try contradiction; reflexivity.
  - assert (forall ks, matching_path (to_vec (below p ks)) q /\ (length (path_tokens p) + length ks = length (path_tokens (below p ks)))%nat) as Bl.
    { intro ks. unfold below. revert p M. induction ks as [|k ks IH]; intros p M; cbn [fold_left length]; [split; [exact M|lia]|].
      destruct (IH (join p k)) as [A1 A2]; [apply accepts_join, M|]. split; [exact A1|]. rewrite join_len in A2. lia. }
    intro ks. destruct (Bl ks) as [A1 A2]. exists [], (q, mkRules [r] lg cs), []. split; [exact Ru|]. split; [split; assumption|].
    split; [intros ? []|]. split; [intros ? []|]. unfold applied. cbn [fst snd rl_rules rl_logic]. f_equal. rewrite vec_len, <- A2.
    apply accepts_len in M. rewrite vec_len in M. destruct ks as [|k ks]; [cbn [length]; f_equal; lia|]. symmetry. apply Nat.ltb_lt. cbn [length]. lia.
Qed.

(** ** C39: the order of the rule map *)
Definition about_entries (e : docpath * rulelist) : Prop := exists r, In r (rl_rules (snd e)) /\ entry_rule r = true.
Theorem C39_order_of_the_rules_is_irrelevant : forall w c c' p e a,
  reordered c c' -> cat_name (matchers c) = CBody ->
  (* wherever several entries win, they say the same *)
  (forall loc x y, winner (matchers c) (to_vec loc) x -> winner (matchers c) (to_vec loc) y ->
     applied (to_vec loc) x = applied (to_vec loc) y) ->
  (* of the entries written for one location all have a rule about entries, or none has *)
  (forall loc x y, In x (cat_rules (matchers c)) -> In y (cat_rules (matchers c)) ->
     exactly_for loc (fst x) -> exactly_for loc (fst y) -> about_entries x -> about_entries y) ->
  compare_json w p e a c' = compare_json w p e a c.
Proof.
  intros w c c' p e a (AL & Nm & P) B U X. symmetry. apply fuel_equiv. split; [symmetry; exact AL|]. intro loc.
  assert (B' : cat_name (matchers c') = CBody) by (rewrite Nm; exact B).
  assert (bool_iff : forall b b' : bool, (b = true <-> b' = true) -> b = b').
  { intros [|] [|] H; try reflexivity; [symmetry|]; apply H; reflexivity. }
  assert (IN : forall x, In x (cat_rules (matchers c)) <-> In x (cat_rules (matchers c'))).
  { intro x. split; apply Permutation_in; [exact P|apply Permutation_sym, P]. }
  repeat split.
  - apply bool_iff. unfold ctx_matcher_is_defined. rewrite (C08_rule_defined _ _ (or_introl B)), (C08_rule_defined _ _ (or_introl B')).
    split; intros (x & I & C); exists x; (split; [apply IN, I|exact C]).
  - unfold ctx_select_best. symmetry. apply C09_body_selection_ignores_order; [left; exact B|apply U|exact Nm|exact P].
  - apply bool_iff. rewrite (direct_entry_iff c loc B), (direct_entry_iff c' loc B').
    assert (G : forall d d' : context, cat_name (matchers d') = CBody -> (forall x, In x (cat_rules (matchers d)) <-> In x (cat_rules (matchers d'))) ->
      (forall x y, In x (cat_rules (matchers d)) -> In y (cat_rules (matchers d)) ->
         exactly_for loc (fst x) -> exactly_for loc (fst y) -> about_entries x -> about_entries y) ->
      (exists rl r, first_written (matchers d) loc rl /\ In r (rl_rules rl) /\ entry_rule r = true) ->
      exists rl r, first_written (matchers d') loc rl /\ In r (rl_rules rl) /\ entry_rule r = true).
    { intros d d' Bd DD Y (rl & r & (b & q & t & E & F & _) & Ir & Er).
      assert (In (q, rl) (cat_rules (matchers d))) as I0 by (rewrite E; apply in_or_app; right; left; reflexivity).
      destruct (filter (fun pr => matches_path_exactly (fst pr) (to_vec loc)) (cat_rules (matchers d'))) as [|[q' rl'] l] eqn:Fl.
      { assert (In (q, rl) []) as []; rewrite <- Fl. apply filter_In. split; [apply DD, I0|apply exactly_iff, F]. }
      destruct (filter_first _ _ _ _ _ Fl) as (b' & t' & E' & M' & N').
      assert (In (q', rl') (cat_rules (matchers d))) as I1 by (apply DD; rewrite E'; apply in_or_app; right; left; reflexivity).
      apply exactly_iff in M'. destruct (Y _ _ I0 I1 F M') as (r' & Ir' & Er'); [exists r; split; assumption|].
      exists rl', r'. split; [|split; assumption]. exists b', q', t'. split; [exact E'|]. split; [exact M'|].
      intros u Iu Xu. apply exactly_iff in Xu. rewrite (N' _ Iu) in Xu. discriminate. }
    split; apply G; try assumption.
    + apply X.
    + intro x. symmetry. apply IN.
    + intros x y Ix Iy. apply X; apply IN; assumption.
  - apply bool_iff. rewrite (direct_any_iff c loc B), (direct_any_iff c' loc B').
    split; intros (x & I & C); exists x; (split; [apply IN, I|exact C]).
Qed.

(** ** Examples *)
Definition ex_path (l : list token) : docpath := from_tokens (TRoot :: l).
(** Several rules: a minimum size and integers in its elements; any keys that contain "k" in $.b; the
    elements of $.c in any order. *)
Definition ex_rules : category := mkCat CBody
  [(ex_path [TField (S_ "a")], mkRules [RMinType 2] And false);
   (ex_path [TField (S_ "a"); TStarIndex; TField (S_ "id")], mkRules [RInteger; RNull] Or false);
   (ex_path [TField (S_ "b")], mkRules [REachKey (mkDef [] VUnknown [inl (RInclude (S_ "k"))] [])] And false);
   (ex_path [TField (S_ "c")], mkRules [RArrayContains [(1, mkCat CBody [(path_root, rl_new RType)])]] And false);
   (ex_path [TField (S_ "d")], mkRules [REachValue (mkDef [] VUnknown [inl RType] [])] And false)].
Definition ex_ctx : context := mkCtx true ex_rules.
Example ex_rules_ok : body_rules ex_rules.
Proof.
  split; [reflexivity|]. intros e r Ie. cbn [ex_rules cat_rules] in Ie.
  destruct Ie as [<-|[<-|[<-|[<-|[<-|[]]]]]]; cbn [snd rl_rules]; intros Ir.
  - destruct Ir as [<-|[]]. constructor; exact I.
  - destruct Ir as [<-|[<-|[]]]; constructor; exact I.
  - destruct Ir as [<-|[]]. apply ra_key; [exact I|]. intros r [E|[]]. injection E as <-. constructor; exact I.
  - destruct Ir as [<-|[]]. apply ra_arr; [repeat constructor|]. apply Forall_cons; [|constructor]. apply Forall_cons; [|constructor].
    apply Forall_cons; [constructor; exact I|constructor].
  - destruct Ir as [<-|[]]. apply ra_val; [exact I|]. intros r [E|[]]. injection E as <-. constructor; exact I.
Qed.
Definition ex_expected : json := JObj
  [(S_ "a", JArr [JObj [(S_ "id", num_of 1); (S_ "n", JStr (S_ "x"))]]); (S_ "b", JObj [(S_ "k1", num_of 1)]);
   (S_ "c", JArr [JNull; num_of 1]); (S_ "d", JArr [JStr []])].
Definition ex_actual : json := JObj
  [(S_ "a", JArr [JObj [(S_ "id", JNull); (S_ "n", JStr (S_ "y"))]; JObj [(S_ "id", num_of 7); (S_ "n", JStr [])]]);
   (S_ "b", JObj [(S_ "ok", JNull)]); (S_ "c", JArr [num_of 2; JNull]); (S_ "d", JArr [JStr (S_ "u"); JStr (S_ "v")])].
Example C67_example : forall w, conforms w ex_ctx path_root ex_expected ex_actual.
Proof. intro w. apply C67_body_matching; [apply ex_rules_ok|]. vm_compute. reflexivity. Qed.
Example C67_example_refused : forall w, ~ conforms w ex_ctx path_root ex_expected
  (JObj [(S_ "a", JArr [JObj [(S_ "id", JStr []); (S_ "n", JStr (S_ "y"))]; JObj [(S_ "id", num_of 7); (S_ "n", JStr [])]]);
   (S_ "b", JObj []); (S_ "c", JArr [num_of 2]); (S_ "d", JArr [])]).
Proof. intros w H. apply C67_body_matching in H; [|apply ex_rules_ok]. vm_compute in H. discriminate. Qed.
Lemma ex_select : forall p, matcher_is_defined ex_rules (to_vec p) = true -> in_force ex_rules p (select_best_matcher ex_rules (to_vec p)).
Proof. intros p D. apply select_in_force; [reflexivity|exact D]. Qed.
(** The hypotheses of the theorems above at the locations of this example. *)
Example C14_body_example : in_force (matchers ex_ctx) (ex_path [TField (S_ "a"); TIndex 0; TField (S_ "id")]) (mkRules [RInteger; RNull] Or false).
Proof. apply (ex_select (ex_path [TField (S_ "a"); TIndex 0; TField (S_ "id")])). vm_compute. reflexivity. Qed.
Example C15_body_example : in_force (matchers ex_ctx) (ex_path [TField (S_ "a")]) (mkRules [RMinType 2] And false).
Proof. apply (ex_select (ex_path [TField (S_ "a")])). vm_compute. reflexivity. Qed.
Example C36_body_example : in_force (matchers ex_ctx) (ex_path [TField (S_ "c")])
  (mkRules [RArrayContains [(1, mkCat CBody [(path_root, rl_new RType)])]] And false).
Proof. apply (ex_select (ex_path [TField (S_ "c")])). vm_compute. reflexivity. Qed.
Example C45_body_example : in_force (matchers ex_ctx) (ex_path [TField (S_ "d")]) (mkRules [REachValue (mkDef [] VUnknown [inl RType] [])] And false) /\
  for_each_entry (ex_path [TField (S_ "d")]) (mkDef [] VUnknown [inl RType] []) (mkCat CBody [(join (ex_path [TField (S_ "d")]) (S_ "*"), mkRules [RType] And false)]).
Proof. split; [apply (ex_select (ex_path [TField (S_ "d")])); vm_compute; reflexivity|]. exists [RType]. split; reflexivity. Qed.
Example C46_body_example : in_force (matchers ex_ctx) (ex_path [TField (S_ "b")])
    (mkRules [REachKey (mkDef [] VUnknown [inl (RInclude (S_ "k"))] [])] And false) /\
  (forall x y, In x (cat_rules ex_rules) -> In y (cat_rules ex_rules) -> exactly_for (ex_path [TField (S_ "b")]) (fst x) ->
     exactly_for (ex_path [TField (S_ "b")]) (fst y) -> x = y).
Proof.
  split; [apply (ex_select (ex_path [TField (S_ "b")])); vm_compute; reflexivity|].
  assert (forall x, In x (cat_rules ex_rules) -> exactly_for (ex_path [TField (S_ "b")]) (fst x) -> x = nth 2 (cat_rules ex_rules) x) as G.
  { intros x Ix X. apply exactly_iff in X. cbn [ex_rules cat_rules] in Ix.
    destruct Ix as [<-|[<-|[<-|[<-|[<-|[]]]]]]; vm_compute in X; try discriminate X. reflexivity. }
  intros x y Ix Iy X Y. rewrite (G x Ix X), (G y Iy Y). reflexivity.
Qed.
(** A type rule in force everywhere below its path, next to rules elsewhere. *)
Definition ex_two : category := mkCat CBody [(ex_path [TField (S_ "b")], rl_new RType); (ex_path [TField (S_ "a")], rl_new RInteger)].
Example C38_body_example : governs ex_two (ex_path [TField (S_ "b")]) RType And false /\ no_entry_rules ex_two.
Proof.
  split; [|intros e x [<-|[<-|[]]] [<-|[]]; reflexivity].
  intro ks.
  assert (G : exists rest, to_vec (below (ex_path [TField (S_ "b")]) ks) = S_ "$" :: S_ "b" :: rest /\
              (length (path_tokens (below (ex_path [TField (S_ "b")]) ks)) = 2 + length ks)%nat /\ length rest = length ks).
  { unfold below. assert (forall ks p rest, to_vec p = S_ "$" :: S_ "b" :: rest ->
      exists rest', to_vec (fold_left join ks p) = S_ "$" :: S_ "b" :: rest' /\
      (length (path_tokens (fold_left join ks p)) = length (path_tokens p) + length ks)%nat /\ length rest' = (length rest + length ks)%nat) as H.
    { clear ks. induction ks as [|k ks IH]; intros p rest E; cbn [fold_left length]; [exists rest; repeat split; [exact E|lia|lia]|].
      destruct (IH (join p k) (rest ++ [token_display (part_token k)])) as (r & E1 & E2 & E3).
      - rewrite to_vec_join, E. reflexivity.
      - exists r. split; [exact E1|]. rewrite join_len in E2. rewrite app_length in E3. cbn [length] in E3. split; lia. }
    destruct (H ks (ex_path [TField (S_ "b")]) [] eq_refl) as (r & E1 & E2 & E3). exists r. split; [exact E1|]. split; [exact E2|exact E3]. }
  destruct G as (rest & E & L & Lr).
  assert (C : matching_path (to_vec (below (ex_path [TField (S_ "b")]) ks)) (ex_path [TField (S_ "b")])).
  { rewrite E. change (accepts [TRoot; TField (S_ "b")] (S_ "$" :: S_ "b" :: rest)). repeat constructor. }
  exists [], (ex_path [TField (S_ "b")], rl_new RType), [(ex_path [TField (S_ "a")], rl_new RInteger)].
  split; [reflexivity|]. split; [split; [exact C|cbn; lia]|]. split; [intros ? []|]. split.
  - intros e' [<-|[]] [A _]. exfalso. rewrite E in A. inversion A as [|? ? ? ? _ A2]; subst. inversion A2 as [|? ? ? ? A3 _]; subst. vm_compute in A3. discriminate A3.
  - unfold applied. cbn [fst snd rl_rules rl_logic rl_new]. f_equal. rewrite E. cbn [length]. rewrite Lr. destruct ks; [reflexivity|].
    symmetry. apply Nat.ltb_lt. cbn [length ex_path from_tokens path_tokens]. lia.
Qed.
