(** Proofs about header matching. *)
From Coq Require Import Ascii String List Arith NArith ZArith Lia Bool Sorted Permutation.
From Verif Require Import Base PathExp Json Text TextProofs MatchingRules Matchers JsonCompare Headers SpecHeaders.
Import ListNotations.
Open Scope N_scope.
Local Opaque show_N.

(** * Results that differ only in the path text *)
Definition kinds (l : list mismatch) : list mismatch_kind := map mm_kind l.
Lemma kinds_app : forall a b, kinds (a ++ b) = kinds a ++ kinds b.
Proof. intros. apply map_app. Qed.
Lemma kinds_nil : forall l, kinds l = [] <-> l = [].
Proof. intro l. split; [apply map_eq_nil | intros ->; reflexivity]. Qed.
Lemma kinds_map : forall k l, kinds (map (mkMM k) l) = l.
Proof. intros. unfold kinds. rewrite map_map. apply map_id. Qed.
Lemma kinds_flat_map : forall A (f : A -> list mismatch) l, kinds (flat_map f l) = flat_map (fun x => kinds (f x)) l.
Proof. intros. induction l as [|x l IH]; [reflexivity|]. cbn. rewrite kinds_app, IH. reflexivity. Qed.

Section Congruence.
Variable T : Type.
Variable eqb : T -> T -> bool.
Variable clone : context -> category -> context.
Variables cb cb' : docpath -> T -> T -> context -> list mismatch.
Hypothesis H : forall p e a c, kinds (cb p e a c) = kinds (cb' p e a c).

Lemma cb_empty : forall p e a c, cb p e a c = [] <-> cb' p e a c = [].
Proof. intros. rewrite <- (kinds_nil (cb p e a c)), H, kinds_nil. reflexivity. Qed.
Lemma match_elements_kinds : forall p c e i a,
  kinds (match_elements T cb p c i e a) = kinds (match_elements T cb' p c i e a).
Proof.
  induction e as [|x e IH]; intros i a; [reflexivity|]. cbn [match_elements]. destruct a as [|y a].
  - rewrite !kinds_app, IH. reflexivity.
  - rewrite !kinds_app, H, IH. reflexivity.
Qed.
Lemma compare_list_kinds : forall r p e a c b,
  kinds (compare_lists_with_matchingrule T eqb clone cb r p e a c b) =
  kinds (compare_lists_with_matchingrule T eqb clone cb' r p e a c b).
Proof.
  intros r p e a c b. destruct e as [|x e]; [reflexivity|].
  assert (forall c, kinds (match_list_contents T cb p (x :: e) a c) = kinds (match_list_contents T cb' p (x :: e) a c)) as M
    by (intro; apply match_elements_kinds).
  destruct r; cbn [compare_lists_with_matchingrule]; try (rewrite !kinds_app, M; reflexivity).
  - rewrite !kinds_flat_map. apply flat_map_ext. intros [i v]. unfold match_variant. cbn [fst snd].
    destruct (nth_error _ _); [|reflexivity]. f_equal.
    replace (existsb (fun y => match cb path_root t y (clone c v) with [] => true | _ => false end) a)
      with (existsb (fun y => match cb' path_root t y (clone c v) with [] => true | _ => false end) a); [reflexivity|].
    clear M. induction a as [|y a IH]; [reflexivity|]. cbn [existsb]. rewrite IH. f_equal.
    pose proof (cb_empty path_root t y (clone c v)) as E.
    destruct (cb path_root t y (clone c v)), (cb' path_root t y (clone c v)); try reflexivity.
    + exfalso. discriminate (proj1 E eq_refl).
    + exfalso. discriminate (proj2 E eq_refl).
  - destruct b; [reflexivity|]. rewrite !kinds_app, M. reflexivity.
Qed.
Lemma compare_lists_kinds : forall p rl e a c,
  kinds (compare_lists_with_matchingrules T eqb clone cb p rl e a c) =
  kinds (compare_lists_with_matchingrules T eqb clone cb' p rl e a c).
Proof.
  intros p rl e a c. unfold compare_lists_with_matchingrules. destruct (rl_is_empty rl); [reflexivity|].
  set (f := fun r => compare_lists_with_matchingrule T eqb clone cb r p e a c (rl_cascaded rl)).
  set (g := fun r => compare_lists_with_matchingrule T eqb clone cb' r p e a c (rl_cascaded rl)).
  assert (forall r, kinds (f r) = kinds (g r)) as FG by (intro; apply compare_list_kinds).
  assert (kinds (concat (map f (rl_rules rl))) = kinds (concat (map g (rl_rules rl)))) as C.
  { rewrite <- !flat_map_concat_map, !kinds_flat_map. apply flat_map_ext. exact FG. }
  assert (forallb nonempty (map f (rl_rules rl)) = forallb nonempty (map g (rl_rules rl))) as F.
  { clear C. induction (rl_rules rl) as [|r rs IH]; [reflexivity|]. cbn [map forallb]. rewrite IH. f_equal.
    specialize (FG r). destruct (f r), (g r); try reflexivity; discriminate. }
  cbv zeta. destruct (rl_logic rl); [exact C|]. rewrite F. destruct (forallb nonempty (map g (rl_rules rl))); [exact C | reflexivity].
Qed.
End Congruence.

Section Headers.
Variable w : world.
Notation lower := (to_lower w).

Lemma value_kinds : forall k k' i e a c, lower k = lower k' ->
  kinds (match_header_value w k i e a c) = kinds (match_header_value w k' i e a c).
Proof. intros k k' i e a c L. unfold match_header_value. rewrite !kinds_map, L. reflexivity. Qed.
Lemma elements_kinds : forall k k' c, lower k = lower k' -> forall e i a,
  kinds (header_elements w k c i e a) = kinds (header_elements w k' c i e a).
Proof.
  intros k k' c L. induction e as [|x e IH]; intros i a; [reflexivity|]. cbn [header_elements]. destruct a as [|y a].
  - cbn. f_equal. apply IH.
  - rewrite !kinds_app, (value_kinds k k') by exact L. rewrite IH. reflexivity.
Qed.
Lemma find_header_same : forall m k k', lower k = lower k' -> find_header w m k = find_header w m k'.
Proof. intros m k k' L. unfold find_header. rewrite L. reflexivity. Qed.
Lemma entry_kinds : forall m m' c k k' vs, lower k = lower k' -> find_header w m k = find_header w m' k' ->
  kinds (match_header_entry w m c k vs) = kinds (match_header_entry w m' c k' vs).
Proof.
  intros m m' c k k' vs L F. unfold match_header_entry. rewrite F. destruct (find_header w m' k') as [avs|]; [|reflexivity].
  destruct (negb (nonempty vs) && nonempty avs); [reflexivity|].
  assert (kinds (if ctx_matcher_is_defined c (join path_root (lower k))
     then compare_lists_with_matchingrules str str_eqb (header_clone w) (fun _ e a c0 => match_header_value w k 0 e a c0)
            (join path_root (lower k)) (ctx_select_best c (join path_root (lower k))) vs avs (header_clone w c (matchers c))
     else header_elements w k c 0 (pad_values vs (length avs)) avs) =
    kinds (if ctx_matcher_is_defined c (join path_root (lower k'))
     then compare_lists_with_matchingrules str str_eqb (header_clone w) (fun _ e a c0 => match_header_value w k' 0 e a c0)
            (join path_root (lower k')) (ctx_select_best c (join path_root (lower k'))) vs avs (header_clone w c (matchers c))
     else header_elements w k' c 0 (pad_values vs (length avs)) avs)) as G.
  { rewrite L. destruct (ctx_matcher_is_defined c (join path_root (lower k'))).
    - apply compare_lists_kinds. intros. apply value_kinds, L.
    - apply elements_kinds, L. }
  destruct vs as [|x [|x' vs]]; [exact G | | exact G].
  destruct avs as [|y [|y' avs]]; [exact G | apply value_kinds, L | exact G].
Qed.

Lemma find_header_in : forall m k vs, find_header w m k = Some vs -> has_header lower m k vs.
Proof.
  intros m k vs F. unfold find_header in F. destruct (find _ m) as [[k' v]|] eqn:E; [|discriminate]. injection F as <-.
  apply find_some in E as [I E]. apply str_eqb_eq in E. exists k'. split; assumption.
Qed.
Lemma find_header_none : forall m k, find_header w m k = None <-> forall vs, ~ has_header lower m k vs.
Proof.
  intros m k. unfold find_header. destruct (find _ m) as [[k' v]|] eqn:E; split; intro H; try discriminate; try reflexivity.
  - exfalso. apply find_some in E as [I E]. apply str_eqb_eq in E. apply (H v). exists k'. split; assumption.
  - intros vs [k' [I L]]. pose proof (find_none _ _ E _ I) as X. cbv beta in X. cbn [fst] in X. rewrite L, str_eqb_refl in X. discriminate.
Qed.
Lemma unique_has : forall m k vs vs', unique_names lower m -> has_header lower m k vs -> has_header lower m k vs' -> vs = vs'.
Proof.
  induction m as [|[n v] m IH]; intros k vs vs' U [a [Ia La]] [b [Ib Lb]]; [destruct Ia|].
  inversion U as [|? ? NI U']; subst.
  assert (forall x u, In (x, u) m -> lower x = lower k -> lower n = lower k -> False) as C.
  { intros x u I Lx Ln. apply NI. cbn [fst]. rewrite Ln, <- Lx.
    apply in_map_iff. exists (x, u). split; [reflexivity | exact I]. }
  destruct Ia as [Ea|Ia], Ib as [Eb|Ib].
  - congruence.
  - injection Ea as -> ->. exfalso. eapply C; eauto.
  - injection Eb as -> ->. exfalso. eapply C; eauto.
  - apply (IH k); [exact U' | exists a; auto | exists b; auto].
Qed.
Lemma find_header_has : forall m k vs, unique_names lower m -> has_header lower m k vs -> find_header w m k = Some vs.
Proof.
  intros m k vs U Hh. destruct (find_header w m k) as [vs'|] eqn:F.
  - f_equal. apply (unique_has m k); [exact U | apply find_header_in, F | exact Hh].
  - exfalso. exact (proj1 (find_header_none m k) F vs Hh).
Qed.

(** * Matching without rules *)
Lemma no_rules_defined : forall c p, cat_rules (matchers c) = [] -> ctx_matcher_is_defined c p = false.
Proof.
  intros c p E. unfold ctx_matcher_is_defined, matcher_is_defined, resolve_matchers_for_path, cat_filter, cat_is_empty.
  destruct (cat_name (matchers c)); cbn [cat_rules]; rewrite E; reflexivity.
Qed.
Definition value_ok (lkey : str) (x y : str) : Prop :=
  if str_in lkey PARAMETERISED_HEADERS then match_parameter_header w (trim w x) (trim w y) = []
  else trim w x = trim w y.
Lemma value_no_rules : forall k i x y c, cat_rules (matchers c) = [] ->
  (match_header_value w k i x y c = [] <-> value_ok (lower k) x y).
Proof.
  intros k i x y c E. unfold match_header_value, header_value_kinds, value_ok. rewrite !no_rules_defined by exact E.
  destruct (str_in (lower k) PARAMETERISED_HEADERS).
  - split; [apply map_eq_nil | intros ->; reflexivity].
  - cbn [str_matches]. destruct (str_eqb_spec (trim w x) (trim w y)); split; intro HH; try reflexivity; try discriminate; congruence.
Qed.
Lemma elements_no_rules : forall k c, cat_rules (matchers c) = [] -> forall e i a,
  (length a <= length e)%nat -> header_elements w k c i e a = [] <-> Forall2 (value_ok (lower k)) e a.
Proof.
  intros k c E. induction e as [|x e IH]; intros i a.
  - destruct a; [split; [constructor | reflexivity]|cbn; lia].
  - cbn [header_elements]. destruct a as [|y a].
    + split; [discriminate | intro F; inversion F].
    + split.
      * intro A. apply app_eq_nil in A as [A B]. constructor; [apply (value_no_rules k i x y c E), A|].
        apply (IH (i + 1) a); [cbn in H; lia | exact B].
      * intro F. inversion F; subst. rewrite (proj2 (value_no_rules k i x y c E)) by assumption.
        rewrite (proj2 (IH (i + 1) a ltac:(cbn in H; lia))) by assumption. reflexivity.
Qed.
End Headers.
