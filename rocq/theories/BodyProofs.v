(** Proof that body comparison is the relation of SpecBody.v. *)
From Coq Require Import Ascii String List Arith NArith ZArith Lia Bool Permutation.
From Verif Require Import Base PathExp SpecPath PropPath Json MatchingRules SpecRules RulesProofs PropRules
  Matchers JsonCompare SpecMatch CompareProofs CompareProofs2 CompareProofs3 PropMatch SpecValues PropValues SpecBody.
Import ListNotations.
Open Scope N_scope.
Local Opaque show_N.

(** * Lookup *)
Lemma max_by_key_in : forall A (f : A -> N) l x, max_by_key f l = Some x -> In x l.
Proof.
  induction l as [|y l IH]; intros x M; [discriminate|]. cbn [max_by_key] in M.
  destruct (max_by_key f l) as [z|] eqn:E.
  - destruct (f z <? f y); injection M as <-; [left; reflexivity|right; apply IH; reflexivity].
  - injection M as <-. left; reflexivity.
Qed.
Lemma max_by_key_filter : forall A (f : A -> N) (g : A -> bool) l x,
  max_by_key f (filter g l) = Some x <->
  exists b a, l = b ++ x :: a /\ g x = true /\ (forall y, In y b -> g y = true -> f y <= f x) /\
              (forall y, In y a -> g y = true -> f y < f x).
Proof.
  intros A f g l x. split.
  - revert x. induction l as [|y l IH]; intros x M; [discriminate|]. cbn [filter] in M.
    destruct (g y) eqn:G.
    + cbn [max_by_key] in M. destruct (max_by_key f (filter g l)) as [z|] eqn:E.
      * destruct (N.ltb_spec (f z) (f y)); injection M as <-.
        -- exists [], l. split; [reflexivity|]. split; [exact G|]. split; [intros ? []|].
           intros u Iu Gu. destruct (IH z eq_refl) as (b & a & -> & _ & B1 & B2). apply in_app_or in Iu. destruct Iu as [Iu|[<-|Iu]]; [|assumption|].
           ++ specialize (B1 _ Iu Gu). lia.
           ++ specialize (B2 _ Iu Gu). lia.
        -- destruct (IH z eq_refl) as (b & a & -> & Gz & B1 & B2). exists (y :: b), a. split; [reflexivity|]. split; [exact Gz|].
           split; [|exact B2]. intros u [<-|Iu] Gu; [assumption|apply B1; assumption].
      * injection M as <-. exists [], l. split; [reflexivity|]. split; [exact G|]. split; [intros ? []|].
        intros u Iu Gu. destruct (filter g l) as [|v l'] eqn:F.
        -- assert (In u []) as []; rewrite <- F. apply filter_In; auto.
        -- cbn [max_by_key] in E. destruct (max_by_key f l'); [destruct (_ <? _)|]; discriminate.
    + destruct (IH x M) as (b & a & -> & Gz & B1 & B2). exists (y :: b), a. split; [reflexivity|]. split; [exact Gz|].
      split; [|exact B2]. intros u [<-|Iu] Gu; [congruence|apply B1; assumption].
  - intros (b & a & -> & G & B1 & B2). induction b as [|y b IH].
    + cbn [app filter]. rewrite G. cbn [max_by_key]. destruct (max_by_key f (filter g a)) as [z|] eqn:E; [|reflexivity].
      apply max_by_key_in in E. apply filter_In in E. destruct E as [Iz Gz]. specialize (B2 _ Iz Gz).
      destruct (N.ltb_spec (f z) (f x)); [reflexivity|lia].
    + cbn [app filter]. assert (IH' := IH (fun u Iu => B1 u (or_intror Iu))). destruct (g y) eqn:Gy; [|exact IH'].
      cbn [max_by_key]. rewrite IH'. specialize (B1 y (or_introl eq_refl) Gy). destruct (N.ltb_spec (f x) (f y)); [lia|reflexivity].
Qed.

Section Lookup.
Variables (m : category) (p : docpath).
Hypothesis B : cat_name m = CBody.
Let cb : by_specificity m := or_introl B.
Lemma defined_iff : matcher_is_defined m (to_vec p) = false <-> no_rule_at m p.
Proof.
  destruct (matcher_is_defined m (to_vec p)) eqn:D.
  - split; [discriminate|]. intro N. apply (C08_rule_defined m _ cb) in D. destruct D as (e & I & C). destruct (N e I C).
  - split; [|reflexivity]. intros _ e I C. assert (matcher_is_defined m (to_vec p) = true) by (apply (C08_rule_defined m _ cb); eauto). congruence.
Qed.
Lemma in_force_select : forall rl, in_force m p rl -> select_best_matcher m (to_vec p) = rl.
Proof.
  intros rl (b & e & a & E & C & B1 & B2 & ->). rewrite by_specificity_max by exact cb. unfold max_by_path.
  assert (max_by_key (fun pr => path_score (to_vec p) (fst pr))
          (filter (fun pr => 0 <? fst (path_weight (fst pr) (to_vec p))) (cat_rules m)) = Some e) as ->.
  { apply max_by_key_filter. exists b, a. split; [exact E|]. split; [apply candidate_iff, C|].
    split; intros y I G; apply candidate_iff in G; rewrite !candidate_rank by assumption; auto. }
  destruct e as [q rl0]. apply applied_as_cascaded, C.
Qed.
Lemma in_force_defined : forall rl, in_force m p rl -> matcher_is_defined m (to_vec p) = true.
Proof.
  intros rl (b & e & a & E & C & _). apply (C08_rule_defined m _ cb). exists e. split; [|exact C]. rewrite E. apply in_or_app. right; left; reflexivity.
Qed.
Lemma select_in_force : matcher_is_defined m (to_vec p) = true -> in_force m p (select_best_matcher m (to_vec p)).
Proof.
  intro D. apply (C08_rule_defined m _ cb) in D. destruct D as (e0 & I0 & C0).
  rewrite by_specificity_max by exact cb. unfold max_by_path.
  destruct (max_by_key _ _) as [[q rl]|] eqn:M.
  - apply max_by_key_filter in M. destruct M as (b & a & E & G & B1 & B2). cbn [fst] in *. apply candidate_iff in G.
    exists b, (q, rl), a. split; [exact E|]. split; [exact G|].
    split; [|split].
    + intros y I C. rewrite <- !(candidate_rank (to_vec p)) by assumption. apply B1; [exact I|]. apply candidate_iff, C.
    + intros y I C. rewrite <- !(candidate_rank (to_vec p)) by assumption. apply B2; [exact I|]. apply candidate_iff, C.
    + apply applied_as_cascaded, G.
  - exfalso. apply max_by_key_none in M. assert (In e0 []) as []; rewrite <- M. apply filter_In. split; [exact I0|]. apply candidate_iff, C0.
Qed.
Lemma in_force_rules : forall rl r, in_force m p rl -> In r (rl_rules rl) -> exists e, In e (cat_rules m) /\ In r (rl_rules (snd e)).
Proof.
  intros rl r (b & e & a & E & _ & _ & _ & ->) I. exists e. split; [rewrite E; apply in_or_app; right; left; reflexivity|exact I].
Qed.
Lemma exactly_iff : forall q, matches_path_exactly q (to_vec p) = true <-> exactly_for p q.
Proof.
  intro q. unfold matches_path_exactly, exactly_for. rewrite andb_true_iff, N.eqb_eq.
  rewrite (C04_matches_exactly_when q (to_vec p)). unfold candidate. pose proof (vec_len p). intuition lia.
Qed.
End Lookup.
Lemma filter_first : forall A (g : A -> bool) l x t, filter g l = x :: t -> exists b a, l = b ++ x :: a /\ g x = true /\ forall y, In y b -> g y = false.
Proof.
  induction l as [|y l IH]; intros x t F; [discriminate|]. cbn [filter] in F. destruct (g y) eqn:G.
  - injection F as -> _. exists [], l. split; [reflexivity|]. split; [exact G|]. intros ? [].
  - destruct (IH _ _ F) as (b & a & -> & Gx & Nb). exists (y :: b), a. split; [reflexivity|]. split; [exact Gx|]. intros u [<-|I]; auto.
Qed.
Lemma first_filter : forall A (g : A -> bool) b x a, g x = true -> (forall y, In y b -> g y = false) -> exists t, filter g (b ++ x :: a) = x :: t.
Proof.
  induction b as [|y b IH]; intros x a G Nb; cbn [app filter].
  - rewrite G. eauto.
  - rewrite (Nb y (or_introl eq_refl)). apply IH; [exact G|]. intros u I. apply Nb. right; exact I.
Qed.
Section Exact.
Variables (c : context) (p : docpath).
Hypothesis B : cat_name (matchers c) = CBody.
Lemma direct_entry_iff : direct_entry_matcher c p = true <->
  exists rl r, first_written (matchers c) p rl /\ In r (rl_rules rl) /\ entry_rule r = true.
Proof.
  unfold direct_entry_matcher, matchers_for_exact_path. rewrite B. unfold as_rule_list, cat_filter. cbn [cat_rules].
  split.
  - intro H. destruct (filter _ _) as [|[q rl] t] eqn:F; [discriminate|]. apply existsb_exists in H. destruct H as (r & I & E).
    apply filter_first in F. destruct F as (b & a & Ec & G & Nb). cbn [fst] in G. exists rl, r. split; [|auto].
    exists b, q, a. split; [exact Ec|]. split; [apply exactly_iff, G|]. intros e' I' X. apply exactly_iff in X. rewrite (Nb _ I') in X. discriminate.
  - intros (rl & r & (b & q & a & Ec & X & Nb) & I & E). rewrite Ec.
    destruct (first_filter _ (fun pr => matches_path_exactly (fst pr) (to_vec p)) b (q, rl) a) as (t & ->).
    + apply exactly_iff, X.
    + intros y Iy. destruct (matches_path_exactly (fst y) (to_vec p)) eqn:G; [|reflexivity]. apply exactly_iff in G. destruct (Nb _ Iy G).
    + apply existsb_exists. eauto.
Qed.
Lemma direct_any_iff : direct_any_matcher c p = true <-> exists x, In x (cat_rules (matchers c)) /\ exactly_for p (fst x).
Proof.
  unfold direct_any_matcher, matchers_for_exact_path. rewrite B. unfold cat_is_empty, cat_filter. cbn [cat_rules].
  split.
  - intro H. destruct (filter _ _) as [|x t] eqn:F; [discriminate|].
    assert (In x (filter (fun pr => matches_path_exactly (fst pr) (to_vec p)) (cat_rules (matchers c)))) as I by (rewrite F; left; reflexivity).
    apply filter_In in I. exists x. split; [apply I|]. apply exactly_iff, I.
  - intros (x & I & X). destruct (filter _ _) eqn:F; [|reflexivity]. assert (In x []) as []; rewrite <- F. apply filter_In.
    split; [exact I|]. apply exactly_iff, X.
Qed.
Lemma exact_in_force : forall x, In x (cat_rules (matchers c)) -> exactly_for p (fst x) -> exists rl, in_force (matchers c) p rl.
Proof.
  intros x I [C _]. eexists. apply select_in_force; [exact B|]. apply (C08_rule_defined _ _ (or_introl B)). eauto.
Qed.
Lemma match_keys_iff : forall w e a, match_keys w c p e a = [] <-> keys_ok w c p e a.
Proof.
  intros w e a. unfold match_keys, keys_ok.
  assert (forall X Y : list mismatch, X ++ Y = [] <-> X = [] /\ Y = []) as AN by (intros [|] [|]; cbn; split; try tauto; try discriminate; intros []; discriminate).
  rewrite AN. apply and_iff_compat_both || idtac.
  assert ((if direct_entry_matcher c p then []
     else if allow c then match missing_keys e a with [] => [] | s :: l => [mm p (KMissingKeys (s :: l))] end
     else if list_eqb str_eqb e a then [] else [mm p KKeysDiffer]) = [] <->
   (exists rl r, first_written (matchers c) p rl /\ In r (rl_rules rl) /\ entry_rule r = true) \/
   (if allow c then forall k, In k e -> In k a else e = a)) as H1.
  { rewrite <- direct_entry_iff. destruct (direct_entry_matcher c p); [split; [left; reflexivity|reflexivity]|].
    destruct (allow c).
    - rewrite <- missing_keys_nil. destruct (missing_keys e a); split; try tauto; try discriminate. intros [E|E]; discriminate.
    - rewrite <- keys_eqb. destruct (list_eqb str_eqb e a); split; try tauto; try discriminate. intros [E|E]; discriminate. }
  rewrite H1. clear H1. apply and_iff_compat_l.
  destruct (direct_any_matcher c p) eqn:D.
  - apply direct_any_iff in D. destruct D as (x & I & X). destruct (exact_in_force x I X) as (rl & F).
    unfold ctx_select_best. rewrite (in_force_select _ _ B _ F). rewrite flat_map_nil. split.
    + intros H x' rl' d I' X' F' Id i Ii.
      assert (rl' = rl) as -> by (rewrite <- (in_force_select _ _ B _ F), <- (in_force_select _ _ B _ F'); reflexivity).
      specialize (H _ Id). cbn [each_key_mismatches] in H. rewrite flat_map_nil in H. specialize (H _ Ii).
      destruct i as [r|n]; [|discriminate]. exists r. split; [reflexivity|]. intros k Ik. rewrite flat_map_nil in H. specialize (H _ Ik).
      destruct (str_matches w [] k r false); [reflexivity|discriminate].
    + intros H r Ir. destruct r; try reflexivity. cbn [each_key_mismatches]. apply flat_map_nil. intros i Ii.
      destruct (H x rl d I X F Ir i Ii) as (r & -> & K). apply flat_map_nil. intros k Ik. rewrite (K _ Ik). reflexivity.
  - split; [|reflexivity]. intros _ x rl d I X. exfalso. assert (direct_any_matcher c p = true) by (apply direct_any_iff; eauto). congruence.
Qed.
End Exact.

(** * Single values *)
Lemma scalar_satisfies_iff : forall w r e a casc, is_scalar e ->
  (json_matches w e a r casc = true <-> scalar_satisfies w r e a).
Proof.
  intros w r e a casc Sc.
  destruct r; cbn [scalar_satisfies]; try (apply (C42_json_value w _ e a casc); exact I); try (cbn [json_matches]; apply scalar_eqb, Sc);
    try (cbn [json_matches]; tauto).
  1: apply C15_type_rule_compares_types.
  all: match goal with |- json_matches ?w ?e ?a ?r ?c = true <-> _ => rewrite (C15_sized_rules w r e a c I) end;
    split; [intros [E _]; exact E|intro E; split; [exact E|]]; intros _ l l' -> _; contradiction Sc.
Qed.
Lemma size_iff : forall r casc n, type_rule r ->
  match r with
  | RMinType min => negb (negb casc && (n <? min)) = true
  | RMaxType max => negb (negb casc && (max <? n)) = true
  | RMinMaxType min max => (if negb casc && (n <? min) then false else negb (negb casc && (max <? n))) = true
  | _ => True
  end <-> (casc = false -> size_allowed r n).
Proof.
  intros r casc n T. destruct r; try contradiction; cbn [size_allowed]; destruct casc; cbn [negb andb];
    try (split; [intros _ E; discriminate E|reflexivity]); try tauto;
    repeat match goal with |- context [?a <? ?b] => destruct (N.ltb_spec a b) end; cbn [negb]; split; intro H'; try discriminate; try reflexivity; try (intros _; lia);
    try (specialize (H' eq_refl); lia).
Qed.
Lemma list_eqb_json : forall e a, list_eqb json_eqb e a = json_eqb (JArr e) (JArr a).
Proof. induction e as [|x e IH]; destruct a as [|y a]; reflexivity. Qed.
Lemma obj_eqb_json : forall e a, list_eqb (fun x y => str_eqb (fst x) (fst y) && json_eqb (snd x) (snd y)) e a = json_eqb (JObj e) (JObj a).
Proof.
  induction e as [|[k x] e IH]; destruct a as [|[k' y] a]; try reflexivity. cbn [list_eqb fst snd]. rewrite IH. reflexivity.
Qed.
Lemma nonempty_iff : forall A (a : list A), nonempty a = true <-> a <> [].
Proof. intros A [|]; cbn; split; congruence. Qed.
Lemma array_satisfies_iff : forall r casc e a, list_matches json_eqb e a r casc = true <-> array_satisfies r casc e a.
Proof.
  intros r casc e a. destruct r; cbn [list_matches array_satisfies]; try tauto; try (split; [discriminate|contradiction]).
  - apply (size_iff (RMinType min) casc (len a) I).
  - apply (size_iff (RMaxType max) casc (len a) I).
  - apply (size_iff (RMinMaxType min max) casc (len a) I).
  - apply nonempty_iff.
Qed.
Lemma object_satisfies_iff : forall r casc e a, map_matches json_eqb e a r casc = true <-> object_satisfies r casc e a.
Proof.
  intros r casc e a. destruct r; cbn [map_matches object_satisfies]; try tauto; try (split; [discriminate|contradiction]).
  - rewrite obj_eqb_json. tauto.
  - apply (size_iff (RMinType min) casc (len a) I).
  - apply (size_iff (RMaxType max) casc (len a) I).
  - apply (size_iff (RMinMaxType min max) casc (len a) I).
  - apply nonempty_iff.
Qed.

(** * Elements and entries *)
Lemma app_nil_iff : forall A (X Y : list A), X ++ Y = [] <-> X = [] /\ Y = [].
Proof. intros A [|] [|]; cbn; split; try tauto; try discriminate; intros []; discriminate. Qed.
Lemma elements_iff : forall (cb : docpath -> json -> json -> context -> list mismatch) p c e a i,
  match_elements json cb p c i e a = [] <->
  (forall n x y, nth_error e n = Some x -> nth_error a n = Some y -> cb (join p (show_N (i + N.of_nat n))) x y c = []) /\
  (forall n, (length a <= n < length e)%nat -> ctx_matcher_is_defined c (join p (show_N (i + N.of_nat n))) = true).
Proof.
  intros cb p c. induction e as [|x e IH]; intros a i; cbn [match_elements].
  - split; [intros _; split; [intros [|n]; discriminate|cbn; intros n L; lia]|reflexivity].
  - assert (Z : forall n : nat, i + 1 + N.of_nat n = i + N.of_nat (S n)) by (intro n; lia).
    destruct a as [|y a]; rewrite app_nil_iff, IH.
    + split.
      * intros [H1 [H2 H3]]. split; [intros n x0 y E F; destruct n; discriminate|].
        intros n L. destruct n as [|n].
        -- cbn [N.of_nat]. rewrite N.add_0_r. destruct (ctx_matcher_is_defined c (join p (show_N i))); [reflexivity|discriminate].
        -- rewrite <- Z. apply H3. cbn [length] in *. lia.
      * intros [H1 H2]. split; [|split].
        -- specialize (H2 O). cbn [N.of_nat] in H2. rewrite N.add_0_r in H2. rewrite H2; [reflexivity|cbn; lia].
        -- intros [|n]; discriminate.
        -- intros n L. rewrite Z. apply H2. cbn [length] in *. lia.
    + split.
      * intros [H1 [H2 H3]]. split.
        -- intros [|n] x0 y0 E F; cbn [nth_error] in E, F.
           ++ injection E as <-. injection F as <-. cbn [N.of_nat]. rewrite N.add_0_r. exact H1.
           ++ rewrite <- Z. eapply H2; eassumption.
        -- intros [|n] L; cbn [length] in L; [lia|]. rewrite <- Z. apply H3. lia.
      * intros [H1 H2]. split; [|split].
        -- specialize (H1 O x y eq_refl eq_refl). cbn [N.of_nat] in H1. rewrite N.add_0_r in H1. exact H1.
        -- intros n x0 y0 E F. rewrite Z. apply (H1 (S n)); assumption.
        -- intros n L. rewrite Z. apply H2. cbn [length]. lia.
Qed.
Lemma list_contents_iff : forall (cb : docpath -> json -> json -> context -> list mismatch) p c e a,
  match_list_contents json cb p e a c = [] <->
  (forall i x y, nth_or_first e i = Some x -> nth_error a i = Some y -> cb (join p (show_N (N.of_nat i))) x y c = []) /\
  (forall i, (length a <= i < length e)%nat -> ctx_matcher_is_defined c (join p (show_N (N.of_nat i))) = true).
Proof.
  intros cb p c e a. unfold match_list_contents. rewrite elements_iff. split.
  - intros [H1 H2]. split.
    + intros i x y E F. assert (i < length a)%nat as L by (apply nth_error_Some; congruence).
      apply (H1 i x y); [|exact F]. rewrite pad_nth by exact L. rewrite E. reflexivity.
    + intros i L. apply (H2 i). unfold pad_expected. destruct e; [cbn in L; lia|]. rewrite app_length. lia.
  - intros [H1 H2]. split.
    + intros i x y E F. assert (i < length a)%nat as L by (apply nth_error_Some; congruence).
      rewrite pad_nth in E by exact L. destruct (nth_or_first e i) eqn:N; [|discriminate]. injection E as ->. exact (H1 _ _ _ N F).
    + intros i L. apply (H2 i). unfold pad_expected in L. destruct e as [|f e]; [cbn in L; lia|]. rewrite app_length, repeat_length in L. lia.
Qed.
Lemma entries_iff : forall (cb : docpath -> json -> json -> context -> list mismatch) p e a c,
  compare_entries json cb p e a c = [] <-> (forall k x y, In (k, x) e -> obj_get k a = Some y -> cb (join p k) x y c = []).
Proof.
  intros cb p e a c. unfold compare_entries. rewrite flat_map_nil. split.
  - intros H k x y I G. specialize (H _ I). cbn [fst snd] in H. rewrite G in H. exact H.
  - intros H [k x] I. cbn [fst snd]. destruct (obj_get k a) eqn:G; [|reflexivity]. eapply H; eassumption.
Qed.
Lemma values_iff : forall (cb : docpath -> json -> json -> context -> list mismatch) p e a c,
  flat_map (fun kv => match obj_get (fst kv) e with
      | Some v => cb (join p (fst kv)) v (snd kv) c
      | None => match e with (_, first) :: _ => cb (join p (fst kv)) first (snd kv) c | [] => [] end
      end) a = [] <-> (forall k x y, In (k, y) a -> expected_entry e k x -> cb (join p k) x y c = []).
Proof.
  intros cb p e a c. rewrite flat_map_nil. split.
  - intros H k x y I E. specialize (H _ I). cbn [fst snd] in H. destruct E as [E|[E (k0 & rest & F)]]; rewrite E in H; [exact H|].
    subst e. exact H.
  - intros H [k y] I. cbn [fst snd]. destruct (obj_get k e) eqn:G.
    + eapply H; [exact I|]. left. exact G.
    + destruct e as [|[k0 x0] e]; [reflexivity|]. eapply H; [exact I|]. right. split; [exact G|]. eauto.
Qed.
Lemma each_value_iff : forall p d, unresolved_mismatches p d = [] <-> for_each_entry p d (each_value_rules p d).
Proof.
  intros p d. unfold unresolved_mismatches, for_each_entry, each_value_rules, resolved_rules. split.
  - intro H. eexists. split; [reflexivity|]. rewrite flat_map_nil in H. induction (def_rules d) as [|[r|n] l IH]; [reflexivity| |].
    + cbn [flat_map app map]. f_equal. apply IH. intros x I. apply H. right; exact I.
    + specialize (H (inr n) (or_introl eq_refl)). discriminate.
  - intros (rs & _ & E). rewrite <- E. apply flat_map_nil. intros x I. apply in_map_iff in I. destruct I as (r & <- & _). reflexivity.
Qed.
Lemma each_value_unique : forall p d m, for_each_entry p d m -> m = each_value_rules p d.
Proof.
  intros p d m (rs & -> & E). unfold each_value_rules, resolved_rules. rewrite <- E. do 5 f_equal. clear E.
  induction rs as [|r rs IH]; [reflexivity|]. cbn. f_equal. exact IH.
Qed.
Lemma variants_iff : forall e vs i rules, In (i, rules) (effective_variants json e vs) <-> variant_of e vs i rules.
Proof.
  intros e vs i rules. unfold effective_variants, variant_of. destruct vs; [|tauto]. rewrite in_map_iff. unfold len. split.
  - intros (n & E & I). injection E as <- <-. apply in_seq in I. split; [lia|reflexivity].
  - intros [L ->]. exists (N.to_nat i). split; [rewrite N2Nat.id; reflexivity|]. apply in_seq. lia.
Qed.

(** * Contexts reached *)
Lemma each_value_body : forall p d, rule_all body_here (REachValue d) -> body_rules (each_value_rules p d).
Proof.
  intros p d R. split; [reflexivity|]. intros e r [<-|[]] I. cbn [snd rl_rules] in I. inversion R as [? L| | |? ? H]; subst; [contradiction|].
  apply H. unfold resolved_rules in I. apply in_flat_map in I. destruct I as ([x|n] & I & J); [destruct J as [->|[]]; exact I|destruct J].
Qed.
Lemma variant_body : forall e vs i rules, rule_all body_here (RArrayContains vs) -> variant_of e vs i rules -> body_rules rules.
Proof.
  intros e vs i rules R V. unfold variant_of in V. destruct vs as [|v vs].
  - destruct V as [_ ->]. split; [reflexivity|]. intros x r [<-|[]] [<-|[]]. constructor; exact I.
  - inversion R as [? L|? Bh H| |]; subst; [contradiction|]. cbn [body_here] in Bh. rewrite Forall_forall in Bh, H.
    split; [apply (Bh _ V)|]. intros x r Ix Ir. specialize (H _ V). cbn [snd] in H. rewrite Forall_forall in H. specialize (H _ Ix).
    rewrite Forall_forall in H. apply H, Ir.
Qed.

(** * The relation *)
Section Main.
Variable w : world.
Definition good (e : json) : Prop := forall c p a, body_rules (matchers c) -> (compare_json w p e a c = [] <-> conforms w c p e a).

Lemma not_undefined : forall m p, cat_name m = CBody -> (matcher_is_defined m (to_vec p) = true <-> ~ no_rule_at m p).
Proof.
  intros m p B. rewrite <- (defined_iff m p B). destruct (matcher_is_defined m (to_vec p)); split; congruence.
Qed.

Lemma object_rule_iff : forall c p casc r e a, (forall k x, In (k, x) e -> good x) ->
  body_rules (matchers c) -> rule_all body_here r ->
  (compare_maps_with_matchingrule w json json_eqb clone_with (compare_json w) r casc p e a c = [] <-> object_rule w c p casc r e a).
Proof.
  intros c p casc r e a G B R. unfold compare_maps_with_matchingrule.
  assert (GE : forall k x, expected_entry e k x -> good x).
  { intros k x [E|[_ (k0 & rest & ->)]]; [apply obj_get_in in E; eapply G, E|]. apply (G k0). left; reflexivity. }
  destruct (negb casc && is_values_matcher r) eqn:V.
  - apply andb_true_iff in V. destruct V as [V1 V2]. destruct casc; [discriminate|]. destruct r; try discriminate; cbn [app].
    + rewrite values_iff. split.
      * intro H. apply or_values. intros k x y I E. apply (GE _ _ E); [exact B|]. apply H; assumption.
      * intros H k x y Iy E. inversion H as [? ? ? ? H'| |? ? ? ? ? ? Nv]; subst.
        -- apply (GE _ _ E); [exact B|]. apply H'; assumption.
        -- destruct Nv as [Nv|Nv]; [discriminate|]. exfalso. apply Nv. exact I.
    + rewrite app_nil_iff, each_value_iff, values_iff. split.
      * intros [F H]. eapply or_each_value; [exact F|]. intros k x y I E. apply (GE _ _ E); [apply each_value_body, R|]. apply H; assumption.
      * intro H. inversion H as [|? ? ? m ? ? F H'|? ? ? ? ? ? Nv]; subst; [|destruct Nv as [Nv|Nv]; [discriminate|exfalso; apply Nv; exact I]].
        pose proof (each_value_unique _ _ _ F) as ->. split; [exact F|].
        intros k x y I E. apply (GE _ _ E); [apply each_value_body, R|]. apply H'; assumption.
  - rewrite !app_nil_iff, entries_iff, (match_keys_iff c p (proj1 B)).
    assert (NV : casc = true \/ ~ about_values r).
    { destruct casc; [left; reflexivity|right]. destruct r; try discriminate V; cbn; auto. }
    split.
    + intros [H1 [H2 H3]]. apply or_other; [exact NV| |exact H2|].
      * apply object_satisfies_iff. destruct (map_matches json_eqb e a r casc); [reflexivity|discriminate].
      * intros k x y I E. apply (G _ _ I); [exact B|]. apply H3; assumption.
    + intro H. inversion H as [| |? ? ? ? ? ? _ H1 H2 H3]; subst.
      * destruct NV as [NV|NV]; [discriminate|exfalso; apply NV; exact I].
      * destruct NV as [NV|NV]; [discriminate|exfalso; apply NV; exact I].
      * apply object_satisfies_iff in H1. rewrite H1. split; [reflexivity|]. split; [exact H2|].
        intros k x y I E. apply (G _ _ I); [exact B|]. apply H3; assumption.
Qed.

Lemma array_rule_iff : forall c p casc r e a, (forall x, In x e -> good x) ->
  body_rules (matchers c) -> rule_all body_here r ->
  (compare_lists_with_matchingrule json json_eqb clone_with (compare_json w) r p e a c casc = [] <-> array_rule w c p casc r e a).
Proof.
  intros c p casc r e a G B R. unfold compare_lists_with_matchingrule.
  destruct e as [|f e0] eqn:Ee; [split; [intros _; apply ar_empty|reflexivity]|]. rewrite <- Ee in *.
  assert (NE : e <> []) by (rewrite Ee; discriminate). clear f e0 Ee.
  assert (GN : forall i x, nth_or_first e i = Some x -> good x).
  { intros i x E. apply G. unfold nth_or_first in E. destruct (nth_error e i) eqn:N; [injection E as <-; eapply nth_error_In, N|].
    destruct e; [discriminate|]. injection E as <-. left; reflexivity. }
  assert (OTHER : (forall vs, r <> RArrayContains vs) -> (forall d, r <> REachValue d) ->
    ((if list_matches json_eqb e a r casc then [] else [mm p (KRule r)]) ++ match_list_contents json (compare_json w) p e a c = [] <->
     array_rule w c p casc r e a)).
  { intros N1 N2. rewrite app_nil_iff, list_contents_iff. split.
    - intros [H1 [H2 H3]]. apply ar_other; [exact N1|exact N2| | |].
      + apply array_satisfies_iff. destruct (list_matches json_eqb e a r casc); [reflexivity|discriminate].
      + intros i x y E F. apply (GN _ _ E); [exact B|]. apply H2; assumption.
      + intros i L. apply not_undefined; [apply B|]. apply (H3 _ L).
    - intro H. inversion H as [ | | | |? ? ? ? ? ? _ _ H1 H2 H3]; subst; try (exfalso; eapply N1; reflexivity); try (exfalso; eapply N2; reflexivity).
      + exfalso. apply NE. reflexivity.
      + apply array_satisfies_iff in H1. rewrite H1. split; [reflexivity|]. split.
        * intros i x y E F. apply (GN _ _ E); [exact B|]. apply H2; assumption.
        * intros i L. apply not_undefined; [apply B|]. apply H3, L. }
  destruct r; try (apply OTHER; discriminate); clear OTHER.
  - rewrite flat_map_nil. split.
    + intro H. apply ar_contains. intros i rules V. pose proof (H (i, rules) (proj2 (variants_iff _ _ _ _) V)) as H'.
      apply variant_nil in H'. destruct H' as (x & y & Ex & Iy & C). cbn [fst snd] in *. exists x, y. split; [exact Ex|]. split; [exact Iy|].
      apply (G x); [eapply nth_error_In, Ex|apply (variant_body _ _ _ _ R V)|exact C].
    + intros H [i rules] V. apply variants_iff in V. apply variant_nil. cbn [fst snd].
      inversion H as [|? ? ? ? ? ? H'| | |? ? ? ? ? ? N1]; subst; [exfalso; apply NE; reflexivity| |exfalso; eapply N1; reflexivity].
      destruct (H' i rules V) as (x & y & Ex & Iy & C). exists x, y. split; [exact Ex|]. split; [exact Iy|].
      apply (G x); [eapply nth_error_In, Ex|apply (variant_body _ _ _ _ R V)|exact C].
  - destruct casc; [split; [intros _; apply ar_each_value_below|reflexivity]|].
    pose proof (each_value_body p d R) as Bd.
    rewrite app_nil_iff, each_value_iff, list_contents_iff. split.
    + intros [F [H2 H3]]. eapply ar_each_value; [exact F| |].
      * intros i x y E Fy. apply (GN _ _ E); [exact Bd|]. apply H2; assumption.
      * intros i L. apply not_undefined; [apply Bd|]. apply (H3 _ L).
    + intro H. inversion H as [| | |? ? ? m ? ? F H2 H3|? ? ? ? ? ? _ N2]; subst; [exfalso; apply NE; reflexivity| |exfalso; eapply N2; reflexivity].
      pose proof (each_value_unique _ _ _ F) as ->. split; [exact F|]. split.
      * intros i x y E Fy. apply (GN _ _ E); [exact Bd|]. apply H2; assumption.
      * intros i L. apply not_undefined; [apply Bd|]. apply H3, L.
Qed.

Lemma no_rule_vs_force : forall m p rl, cat_name m = CBody -> no_rule_at m p -> in_force m p rl -> False.
Proof. intros m p rl B N F. apply (defined_iff m p B) in N. rewrite (in_force_defined m p B _ F) in N. discriminate. Qed.
Lemma in_force_same : forall m p rl rl', cat_name m = CBody -> in_force m p rl -> in_force m p rl' -> rl' = rl.
Proof. intros m p rl rl' B F F'. rewrite <- (in_force_select m p B _ F), <- (in_force_select m p B _ F'). reflexivity. Qed.

Lemma good_scalar : forall e, is_scalar e -> good e.
Proof.
  intros e Sc c p a B. rewrite compare_unfold.
  assert (compare_step w (compare_json w) p e a c = compare_values w p e a c) as -> by (destruct e; try contradiction; reflexivity).
  unfold compare_values. change (ctx_matcher_is_defined c p) with (matcher_is_defined (matchers c) (to_vec p)).
  destruct (matcher_is_defined (matchers c) (to_vec p)) eqn:D.
  - pose proof (select_in_force _ _ (proj1 B) D) as F. unfold ctx_select_best. set (rl := select_best_matcher (matchers c) (to_vec p)) in *.
    assert (map (mm p) (match_values (json_matches w e a) rl) = [] <-> match_values (json_matches w e a) rl = []) as ->
      by (split; [apply map_eq_nil|intros ->; reflexivity]).
    split.
    + intro H. assert (rl_rules rl <> []) as NE.
      { intro E. rewrite C14_no_rules_is_a_mismatch in H by exact E. discriminate. }
      eapply cf_scalar_rules; [exact Sc|exact F|exact NE|]. unfold combined. destruct (rl_logic rl) eqn:L.
      * intros r I. apply (scalar_satisfies_iff w r e a (rl_cascaded rl) Sc). revert r I. apply (C14_and_needs_every_rule _ rl NE L). exact H.
      * apply (C14_or_needs_one_rule _ rl NE L) in H. destruct H as (r & I & H). exists r. split; [exact I|].
        apply (scalar_satisfies_iff w r e a (rl_cascaded rl) Sc), H.
    + intro H. inversion H as [? ? ? ? _ N _|? ? ? ? rl' _ F' NE H'|? ? ? ? N|? ? ? ? ? F'|? ? ? ? N|? ? ? ? ? F'|? ? ? ? ? ? F']; subst; try contradiction.
      * exfalso. exact (no_rule_vs_force _ _ _ (proj1 B) N F).
      * rewrite (in_force_same _ _ _ _ (proj1 B) F F') in *. unfold combined in H'. destruct (rl_logic rl) eqn:L.
        -- apply (C14_and_needs_every_rule _ rl NE L). intros r I. apply (scalar_satisfies_iff w r e a (rl_cascaded rl) Sc), H', I.
        -- apply (C14_or_needs_one_rule _ rl NE L). destruct H' as (r & I & H'). exists r. split; [exact I|].
           apply (scalar_satisfies_iff w r e a (rl_cascaded rl) Sc), H'.
  - pose proof (proj1 (defined_iff _ _ (proj1 B)) D) as N. cbn [json_matches].
    assert ((if json_eqb e a then [] else [mm p KNotEqual]) = [] <-> same_scalar e a) as ->.
    { rewrite <- (scalar_eqb e a Sc). destruct (json_eqb e a); split; congruence. }
    split.
    + intro H. apply cf_scalar; assumption.
    + intro H. inversion H as [? ? ? ? _ _ H'|? ? ? ? rl' _ F' NE H'|? ? ? ? _|? ? ? ? ? F'|? ? ? ? _|? ? ? ? ? F'|? ? ? ? ? ? F']; subst; try contradiction.
      * exact H'.
      * exfalso. exact (no_rule_vs_force _ _ _ (proj1 B) N F').
Qed.
Lemma mismatched_type : forall c p e a, ~ is_scalar e -> type_of e <> type_of a -> ~ conforms w c p e a.
Proof. intros c p e a S T H. inversion H; subst; try contradiction; apply T; reflexivity. Qed.
Lemma good_object : forall e, (forall k x, In (k, x) e -> good x) -> good (JObj e).
Proof.
  intros e G c p a B. rewrite compare_unfold.
  destruct a as [| | | | |a]; try (split; [discriminate|intro H; exfalso; revert H; apply mismatched_type; [intros []|discriminate]]).
  cbn [compare_step]. unfold compare_maps. change (ctx_matcher_is_defined c p) with (matcher_is_defined (matchers c) (to_vec p)).
  assert (EM : (negb (nonempty e) && negb (allow c) && nonempty a = true <-> e = [] /\ allow c = false /\ a <> [])).
  { destruct e, (allow c), a; cbn; split; try discriminate; try (intros (? & ? & ?); congruence); try (intros _; repeat split; congruence). }
  destruct (matcher_is_defined (matchers c) (to_vec p)) eqn:D.
  - pose proof (select_in_force _ _ (proj1 B) D) as F. unfold ctx_select_best. set (rl := select_best_matcher (matchers c) (to_vec p)) in *.
    assert (RB : forall r, In r (rl_rules rl) -> rule_all body_here r).
    { intros r I. destruct (in_force_rules _ _ _ _ F I) as (x & Ix & Ir). eapply (proj2 B); eassumption. }
    destruct (negb (nonempty e) && negb (allow c) && nonempty a) eqn:Em.
    + split; [discriminate|]. intro H. exfalso. destruct (proj1 EM eq_refl) as (-> & Al & Na). clear EM.
      inversion H as [? ? ? ? Sc|? ? ? ? ? Sc|? ? ? ? N _ _|? ? ? ? ? F' H1 _| | |]; subst; try contradiction.
      * exact (no_rule_vs_force _ _ _ (proj1 B) N F).
      * apply Na. apply H1; [reflexivity|exact Al].
    + rewrite flat_map_nil. split.
      * intro H. eapply cf_object_rules; [exact F| |].
        -- intros E Al. destruct a as [|kv a]; [reflexivity|]. exfalso. assert (false = true) as X; [|discriminate X]. apply EM. repeat split; congruence.
        -- intros r I. apply object_rule_iff; auto.
      * intros H r I. inversion H as [? ? ? ? Sc|? ? ? ? ? Sc|? ? ? ? N _ _|? ? ? ? rl' F' _ H2| | |]; subst; try contradiction.
        -- exfalso. exact (no_rule_vs_force _ _ _ (proj1 B) N F).
        -- rewrite (in_force_same _ _ _ _ (proj1 B) F F') in *. apply object_rule_iff; auto.
  - pose proof (proj1 (defined_iff _ _ (proj1 B)) D) as N.
    assert (NF : forall rl, ~ first_written (matchers c) p rl).
    { intros rl (b & q & t & E & [X _] & _). apply (N (q, rl)); [|exact X]. rewrite E. apply in_or_app. right; left; reflexivity. }
    destruct (negb (nonempty e) && negb (allow c) && nonempty a) eqn:Em.
    + split; [discriminate|]. intro H. exfalso. destruct (proj1 EM eq_refl) as (-> & Al & Na). clear EM.
      inversion H as [? ? ? ? Sc|? ? ? ? ? Sc|? ? ? ? _ K _|? ? ? ? ? F' _ _| | |]; subst; try contradiction.
      * destruct K as [[(rl & r & F & _)|K] _]; [exact (NF _ F)|]. rewrite Al in K. destruct a; [congruence|discriminate].
      * exact (no_rule_vs_force _ _ _ (proj1 B) N F').
    + rewrite app_nil_iff, (match_keys_iff c p (proj1 B)), entries_iff. split.
      * intros [H1 H2]. apply cf_object; [exact N|exact H1|]. intros k x y I E. apply (G _ _ I); [exact B|]. apply H2; assumption.
      * intro H. inversion H as [? ? ? ? Sc|? ? ? ? ? Sc|? ? ? ? _ H1 H2|? ? ? ? ? F' _ _| | |]; subst; try contradiction.
        -- split; [exact H1|]. intros k x y I E. apply (G _ _ I); [exact B|]. apply H2; assumption.
        -- exfalso. exact (no_rule_vs_force _ _ _ (proj1 B) N F').
Qed.
Lemma good_array : forall e, (forall x, In x e -> good x) -> good (JArr e).
Proof.
  intros e G c p a B. rewrite compare_unfold.
  destruct a as [| | | |a|]; try (split; [discriminate|intro H; exfalso; revert H; apply mismatched_type; [intros []|discriminate]]).
  cbn [compare_step]. unfold compare_lists. change (ctx_matcher_is_defined c p) with (matcher_is_defined (matchers c) (to_vec p)).
  destruct (matcher_is_defined (matchers c) (to_vec p)) eqn:D.
  - pose proof (select_in_force _ _ (proj1 B) D) as F. unfold ctx_select_best. set (rl := select_best_matcher (matchers c) (to_vec p)) in *.
    assert (RB : forall r, In r (rl_rules rl) -> rule_all body_here r).
    { intros r I. destruct (in_force_rules _ _ _ _ F I) as (x & Ix & Ir). eapply (proj2 B); eassumption. }
    unfold compare_lists_with_matchingrules, rl_is_empty.
    destruct (rl_rules rl) as [|r0 rs] eqn:Rl.
    + split; [discriminate|]. intro H. exfalso.
      inversion H as [? ? ? ? Sc|? ? ? ? ? Sc| | |? ? ? ? N|? ? ? ? rl' F' Ne|? ? ? ? rl' r F' _ I]; subst; try contradiction.
      * exact (no_rule_vs_force _ _ _ (proj1 B) N F).
      * rewrite (in_force_same _ _ _ _ (proj1 B) F F') in *. congruence.
      * rewrite (in_force_same _ _ _ _ (proj1 B) F F') in *. rewrite Rl in I. destruct I.
    + rewrite <- Rl in *. assert (NE : rl_rules rl <> []) by (rewrite Rl; discriminate). clear r0 rs Rl.
      rewrite <- flat_map_concat_map. destruct (rl_logic rl) eqn:L.
      * rewrite flat_map_nil. split.
        -- intro H. eapply cf_array_and; [exact F|exact NE|exact L|]. intros r I. apply array_rule_iff; auto.
        -- intros H r I. inversion H as [? ? ? ? Sc|? ? ? ? ? Sc| | |? ? ? ? N|? ? ? ? rl' F' _ _ H'|? ? ? ? rl' r' F' L' _]; subst; try contradiction.
           ++ exfalso. exact (no_rule_vs_force _ _ _ (proj1 B) N F).
           ++ rewrite (in_force_same _ _ _ _ (proj1 B) F F') in *. apply array_rule_iff; auto.
           ++ rewrite (in_force_same _ _ _ _ (proj1 B) F F') in *. congruence.
      * set (f := fun r => compare_lists_with_matchingrule json json_eqb clone_with (compare_json w) r p e a c (rl_cascaded rl)).
        assert ((if forallb nonempty (map f (rl_rules rl)) then flat_map f (rl_rules rl) else []) = [] <-> exists r, In r (rl_rules rl) /\ f r = []) as ->.
        { destruct (forallb nonempty (map f (rl_rules rl))) eqn:Fb.
          - rewrite forallb_forall in Fb. rewrite flat_map_nil. split.
            + intro H. destruct (rl_rules rl) as [|r l]; [congruence|]. exists r. split; [left; reflexivity|]. apply H. left; reflexivity.
            + intros (r & I & E). specialize (Fb (f r) (in_map f _ _ I)). rewrite E in Fb. discriminate.
          - split; [intros _|reflexivity]. clear NE RB. induction (rl_rules rl) as [|r l IH]; [discriminate|]. cbn [map forallb] in Fb.
            destruct (f r) eqn:Fr; [exists r; split; [left; reflexivity|exact Fr]|]. cbn [nonempty andb] in Fb. destruct (IH Fb) as (x & I & E).
            exists x. split; [right; exact I|exact E]. }
        split.
        -- intros (r & I & H). eapply cf_array_or; [exact F|exact L|exact I|]. apply array_rule_iff; auto.
        -- intro H. inversion H as [? ? ? ? Sc|? ? ? ? ? Sc| | |? ? ? ? N|? ? ? ? rl' F' _ L' _|? ? ? ? rl' r' F' L' I H']; subst; try contradiction.
           ++ exfalso. exact (no_rule_vs_force _ _ _ (proj1 B) N F).
           ++ rewrite (in_force_same _ _ _ _ (proj1 B) F F') in *. congruence.
           ++ rewrite (in_force_same _ _ _ _ (proj1 B) F F') in *. exists r'. split; [exact I|]. apply array_rule_iff; auto.
  - pose proof (proj1 (defined_iff _ _ (proj1 B)) D) as N.
    assert (X : (if negb (nonempty e) && nonempty a then [mm p KEmptyList] else
       compare_list_content (compare_json w) p e a c ++ (if Nat.eqb (length e) (length a) then [] else [mm p (KListLength (len e) (len a))])) = [] <->
       length e = length a /\ forall i x y, nth_error e i = Some x -> nth_error a i = Some y -> compare_json w (join p (show_N (N.of_nat i))) x y c = []).
    { destruct (negb (nonempty e) && nonempty a) eqn:Em.
      - split; [discriminate|]. intros [L _]. destruct e, a; discriminate.
      - unfold compare_list_content. rewrite app_nil_iff, elements_iff. split.
        + intros [[H1 H2] H3]. destruct (Nat.eqb_spec (length e) (length a)); [|discriminate]. split; [assumption|exact H1].
        + intros [L H]. rewrite L, Nat.eqb_refl. split; [|reflexivity]. split; [exact H|]. intros n Ln. lia. }
    rewrite X. clear X. split.
    + intros [L H]. apply cf_array; [exact N|exact L|]. intros i x y Ex Ey. apply (G x); [eapply nth_error_In, Ex|exact B|]. eapply H; eassumption.
    + intro H. inversion H as [? ? ? ? Sc|? ? ? ? ? Sc| | |? ? ? ? _ L H'|? ? ? ? rl' F' _ _|? ? ? ? rl' r' F' _ _]; subst; try contradiction.
      * split; [exact L|]. intros i x y Ex Ey. apply (G x); [eapply nth_error_In, Ex|exact B|]. eapply H'; eassumption.
      * exfalso. exact (no_rule_vs_force _ _ _ (proj1 B) N F').
      * exfalso. exact (no_rule_vs_force _ _ _ (proj1 B) N F').
Qed.
Lemma all_good : forall e, good e.
Proof.
  intro e. remember (json_depth e) as n eqn:Dn. assert (json_depth e <= n)%nat as L by lia. clear Dn. revert e L.
  induction n as [|n IH]; intros e L; [pose proof (depth_pos e); lia|].
  destruct e; try (apply good_scalar; exact I).
  - apply good_array. intros x Ix. apply IH. pose proof (depth_arr _ _ Ix). lia.
  - apply good_object. intros k x Ix. apply IH. pose proof (depth_obj _ _ _ Ix). lia.
Qed.
End Main.
