(** Properties C08-C13: matching rules and collections of them. *)
From Coq Require Import String List Arith NArith Lia Bool Permutation.
From Verif Require Import Base PathExp SpecPath PathExpProofs PropPath Json MatchingRules SpecRules
  RulesProofs RulesProofs2 RulesProofs3 RulesProofs4.
Import ListNotations.
Open Scope N_scope.

(** ** C08: the most specific rule wins *)
Definition short_paths (c : category) : Prop :=
  Forall (fun pr => (length (path_tokens (fst pr)) <= 58)%nat) (cat_rules c).
Definition by_specificity (c : category) : Prop := cat_name c = CBody \/ cat_name c = CMetadata.

Lemma accepts_len : forall ts path, accepts ts path -> (length ts <= length path)%nat.
Proof. induction 1; cbn; lia. Qed.

Lemma candidate_iff : forall path p, 0 <? fst (path_weight p path) = true <-> candidate path p.
Proof. intros path p. apply C04_matches_exactly_when. Qed.
Lemma candidate_rank : forall path p, candidate path p -> path_score path p = rank p.
Proof.
  intros path p [M L]. unfold path_score. rewrite weight_value_short by assumption. reflexivity.
Qed.
Lemma applied_as_cascaded : forall path p rl, matching_path path p ->
  as_cascaded rl (negb (N.of_nat (length (path_tokens p)) =? N.of_nat (length path))) = applied path (p, rl).
Proof.
  intros path p rl W. unfold as_cascaded, applied. cbn [fst snd]. f_equal. apply accepts_len in W.
  destruct (Nat.ltb_spec (length (path_tokens p)) (length path)) as [L|L].
  - apply negb_true_iff, N.eqb_neq. lia.
  - apply negb_false_iff, N.eqb_eq. lia.
Qed.
Lemma by_specificity_max : forall c path, by_specificity c -> select_best_matcher c path = max_by_path c path.
Proof. intros c path B. unfold select_best_matcher. destruct B as [-> | ->]; reflexivity. Qed.

(** What is applied at a location, with no restriction on the rule paths. *)
Theorem C08_rule_applied : forall c path, by_specificity c ->
  (exists e, winner c path e /\ select_best_matcher c path = applied path e) \/
  ((forall e, In e (cat_rules c) -> ~ candidate path (fst e)) /\ select_best_matcher c path = mkRules [] And false).
Proof.
  intros c path B. rewrite by_specificity_max by exact B. unfold max_by_path.
  destruct (max_by_key _ _) as [[p rl]|] eqn:M.
  - left. apply max_by_key_max in M. destruct M as (I & Mx). apply filter_In in I. destruct I as (I & W).
    cbn [fst] in W. apply candidate_iff in W. exists (p, rl). split.
    + split; [exact I|]. split; [exact W|]. intros e' I' W'. cbn [fst].
      specialize (Mx e'). cbn [fst] in Mx. rewrite !candidate_rank in Mx by assumption. apply Mx. apply filter_In. split; [exact I'|].
      apply candidate_iff. exact W'.
    + apply applied_as_cascaded. apply W.
  - right. apply max_by_key_none in M. split; [|reflexivity].
    intros e I W. assert (In e []) as []; rewrite <- M. apply filter_In. split; [exact I|]. apply candidate_iff. exact W.
Qed.
(** A rule is reported as defined exactly when some rule path takes part. *)
Theorem C08_rule_defined : forall c path, by_specificity c ->
  (matcher_is_defined c path = true <-> exists e, In e (cat_rules c) /\ candidate path (fst e)).
Proof.
  intros c path B.
  assert (E : resolve_matchers_for_path c path = cat_filter (fun p => matches_path p path) c).
  { unfold resolve_matchers_for_path. destruct B as [-> | ->]; reflexivity. }
  unfold matcher_is_defined. rewrite E. unfold cat_is_empty, cat_filter. cbn [cat_rules].
  destruct (filter _ (cat_rules c)) as [|e l] eqn:F; cbn; split; intro H; try discriminate; try reflexivity.
  - destruct H as (e & I & W). exfalso. assert (In e []) as []; rewrite <- F.
    apply filter_In. split; [exact I|]. apply candidate_iff. exact W.
  - assert (I : In e (filter (fun pr => matches_path (fst pr) path) (cat_rules c))) by (rewrite F; left; reflexivity).
    apply filter_In in I. destruct I as (I & W). exists e. split; [exact I|]. apply candidate_iff. exact W.
Qed.

(** Rule paths of at most 58 steps: the rank does not wrap, and the most specific of all
    matching paths wins. *)
Lemma exact_steps_len : forall ts, (exact_steps ts <= length ts)%nat.
Proof. induction ts as [|[] ts IH]; cbn [exact_steps length]; lia. Qed.
Lemma short_rank : forall p, (length (path_tokens p) <= 58)%nat -> rank p = specificity p.
Proof.
  intros p L. unfold rank. apply N.mod_small. unfold specificity. apply pow58; [apply exact_steps_len|exact L].
Qed.
Lemma short_candidate : forall path p, (length (path_tokens p) <= 58)%nat -> (candidate path p <-> matching_path path p).
Proof. intros path p L. unfold candidate. pose proof (exact_steps_len (path_tokens p)). intuition lia. Qed.
Theorem C08_body_rule_is_most_specific : forall c path,
  by_specificity c -> short_paths c ->
  (exists p rl, In (p, rl) (cat_rules c) /\ matching_path path p /\
     (forall p' rl', In (p', rl') (cat_rules c) -> matching_path path p' -> specificity p' <= specificity p) /\
     select_best_matcher c path =
       mkRules (rl_rules rl) (rl_logic rl) (Nat.ltb (length (path_tokens p)) (length path))) \/
  ((forall p rl, In (p, rl) (cat_rules c) -> ~ matching_path path p) /\
   select_best_matcher c path = mkRules [] And false).
Proof.
  intros c path B S. unfold short_paths in S. rewrite Forall_forall in S.
  destruct (C08_rule_applied c path B) as [([p rl] & (I & W & Mx) & E)|[No E]].
  - left. exists p, rl. split; [exact I|]. split; [apply W|]. split; [|exact E].
    intros p' rl' I' W'. specialize (Mx (p', rl') I'). cbn [fst] in Mx.
    rewrite !short_rank in Mx by (apply (S _ I) || apply (S _ I')). apply Mx. apply short_candidate; [apply (S _ I')|exact W'].
  - right. split; [|exact E]. intros p rl I W. apply (No _ I). apply short_candidate; [apply (S _ I)|exact W].
Qed.

(** What the rank means: going deeper, or replacing a wildcard by an exact step, is more specific. *)
Lemma exact_steps_app : forall a b, exact_steps (a ++ b) = (exact_steps a + exact_steps b)%nat.
Proof. induction a as [|[] a IH]; intro b; cbn; rewrite ?IH; lia. Qed.

Theorem C08_deeper_path_is_more_specific : forall p q us,
  us <> [] -> path_tokens q = path_tokens p ++ us -> specificity p < specificity q.
Proof.
  intros p q us NE E. unfold specificity. rewrite E, exact_steps_app, app_length.
  destruct us as [|u us]; [congruence|]. cbn [length].
  rewrite !Nat2N.inj_add, N.pow_add_r.
  assert (0 < 2 ^ N.of_nat (exact_steps (path_tokens p))) by (apply N.neq_0_lt_0, N.pow_nonzero; discriminate).
  assert (0 < 2 ^ N.of_nat (exact_steps (u :: us))) by (apply N.neq_0_lt_0, N.pow_nonzero; discriminate).
  generalize dependent (2 ^ N.of_nat (exact_steps (path_tokens p))).
  generalize dependent (2 ^ N.of_nat (exact_steps (u :: us))). intros b Hb a Ha.
  generalize (N.of_nat (length (path_tokens p))) as n. intro n.
  rewrite Nat2N.inj_succ. nia.
Qed.

Theorem C08_exact_step_is_more_specific : forall p q a b k,
  path_tokens p = a ++ TStar :: b -> path_tokens q = a ++ TField k :: b -> specificity p < specificity q.
Proof.
  intros p q a b k E F. unfold specificity. rewrite E, F, !exact_steps_app, !app_length. cbn [exact_steps length].
  replace (exact_steps a + S (exact_steps b))%nat with (S (exact_steps a + exact_steps b)) by lia.
  rewrite Nat2N.inj_succ, N.pow_succ_r'.
  assert (0 < 2 ^ N.of_nat (exact_steps a + exact_steps b)) by (apply N.neq_0_lt_0, N.pow_nonzero; discriminate).
  generalize dependent (2 ^ N.of_nat (exact_steps a + exact_steps b)). intros x Hx.
  assert (0 < N.of_nat (length a + S (length b))) by lia. nia.
Qed.

(** Fails for paths of 64 exact steps, whose rank wraps to nothing: the rule at the root is applied instead. *)
Definition long_steps : list token := TRoot :: repeat (TField (S_ "a")) 63.
Theorem C08_why_short_paths : exists c path p rl,
  cat_name c = CBody /\ In (p, rl) (cat_rules c) /\ matching_path path p /\
  (forall p' rl', In (p', rl') (cat_rules c) -> p' <> p -> specificity p' < specificity p) /\
  rl_rules (select_best_matcher c path) <> rl_rules rl.
Proof.
  exists (mkCat CBody [(path_root, rl_new RType); (from_tokens long_steps, rl_new RInteger)]).
  exists (S_ "$" :: repeat (S_ "a") 63), (from_tokens long_steps), (rl_new RInteger).
  split; [reflexivity|]. split; [right; left; reflexivity|]. split.
  { unfold matching_path. cbn. repeat constructor. }
  split.
  - intros p' rl' [E|[E|[]]] N; injection E as <- <-; [vm_compute; reflexivity|congruence].
  - vm_compute. discriminate.
Qed.

Definition ex_cat : category := mkCat CBody
  [(from_tokens [TRoot], rl_new RType);
   (from_tokens [TRoot; TField (S_ "a"); TStarIndex], rl_new RInteger);
   (from_tokens [TRoot; TField (S_ "a"); TIndex 0; TField (S_ "b")], rl_new RNumber)].
Example C08_example : by_specificity ex_cat /\ short_paths ex_cat /\
  select_best_matcher ex_cat [S_ "$"; S_ "a"; S_ "0"; S_ "c"] = mkRules [RInteger] And true /\
  select_best_matcher ex_cat [S_ "$"; S_ "a"; S_ "0"; S_ "b"] = mkRules [RNumber] And false /\
  select_best_matcher ex_cat [S_ "x"] = mkRules [] And false.
Proof. split; [left; reflexivity|]. split; [repeat constructor; cbn; lia|]. vm_compute. auto. Qed.

(** ** C09: hash map order *)
Lemma max_by_key_last : forall A (f : A -> N) l x, (forall y, In y l -> f y <= f x) -> max_by_key f (l ++ [x]) = Some x.
Proof.
  induction l as [|a l IH]; intros x H; [reflexivity|]. cbn [app max_by_key].
  rewrite IH by (intros y I; apply H; right; exact I). pose proof (H a (or_introl eq_refl)).
  destruct (N.ltb_spec (f x) (f a)); [lia|reflexivity].
Qed.
Lemma candidate_perm : forall c c' path e, Permutation (cat_rules c) (cat_rules c') -> winner c path e -> winner c' path e.
Proof.
  intros c c' path e P (I & C & M). split; [apply (Permutation_in _ P I)|]. split; [exact C|].
  intros e' I' C'. apply M; [apply (Permutation_in _ (Permutation_sym P) I')|exact C'].
Qed.
(** The rules applied at a location are the same for all orders of the map exactly when the
    entries of the greatest rank agree. *)
Theorem C09_body_selection_ignores_order : forall c path, by_specificity c ->
  ((forall c', cat_name c' = cat_name c -> Permutation (cat_rules c) (cat_rules c') ->
      select_best_matcher c' path = select_best_matcher c path) <->
   (forall e e', winner c path e -> winner c path e' -> applied path e = applied path e')).
Proof.
  intros c path B. split.
  - intros H.
    assert (X : forall e, winner c path e -> select_best_matcher c path = applied path e).
    { intros e We. pose proof We as (I & C & M). apply in_split in I. destruct I as (l1 & l2 & I).
      set (c' := mkCat (cat_name c) ((l1 ++ l2) ++ [e])).
      assert (P : Permutation (cat_rules c) (cat_rules c')).
      { rewrite I. cbn [cat_rules c']. rewrite <- app_assoc. apply Permutation_app_head. apply Permutation_cons_append. }
      rewrite <- (H c' eq_refl P). rewrite by_specificity_max by exact B. unfold max_by_path. cbn [cat_rules c'].
      rewrite filter_app. cbn [filter]. destruct (0 <? fst (path_weight (fst e) path)) eqn:Z; [|apply candidate_iff in C; congruence].
      rewrite max_by_key_last.
      - destruct e as [p rl]. apply applied_as_cascaded. apply C.
      - intros y Y. apply filter_In in Y. destruct Y as [Y1 Y2]. apply candidate_iff in Y2. rewrite !candidate_rank by assumption.
        apply M; [|exact Y2]. rewrite I. apply in_app_iff in Y1. apply in_app_iff. cbn [In]. tauto. }
    intros e e' We We'. rewrite <- (X e We), <- (X e' We'). reflexivity.
  - intros U c' Nm P. assert (B' : by_specificity c') by (unfold by_specificity; rewrite Nm; exact B).
    destruct (C08_rule_applied c path B) as [(e & We & E)|(No & E)]; destruct (C08_rule_applied c' path B') as [(e' & We' & E')|(No' & E')].
    + rewrite E, E'. apply U; [|exact We]. apply (candidate_perm c' c _ _ (Permutation_sym P) We').
    + exfalso. destruct We as (I & C & _). apply (No' e); [apply (Permutation_in _ P I)|exact C].
    + exfalso. destruct We' as (I & C & _). apply (No e'); [apply (Permutation_in _ (Permutation_sym P) I)|exact C].
    + congruence.
Qed.
(** In particular if no two matching rule paths are equally specific. *)
Theorem C09_no_ties : forall c c' path,
  by_specificity c -> short_paths c -> cat_name c' = cat_name c -> Permutation (cat_rules c) (cat_rules c') ->
  (forall e e', In e (cat_rules c) -> In e' (cat_rules c) -> matching_path path (fst e) -> matching_path path (fst e') ->
     specificity (fst e) = specificity (fst e') -> e = e') ->
  select_best_matcher c' path = select_best_matcher c path.
Proof.
  intros c c' path B S Nm P U. apply (proj2 (C09_body_selection_ignores_order c path B)); [|exact Nm|exact P].
  unfold short_paths in S. rewrite Forall_forall in S. intros e e' (I & C & M) (I' & C' & M').
  f_equal. apply U; try assumption; [apply C|apply C'|].
  rewrite <- !short_rank by (apply (S _ I) || apply (S _ I')). specialize (M e' I' C'). specialize (M' e I C). lia.
Qed.

Theorem C09_why_agree : exists c c' path,
  cat_name c = CBody /\ cat_name c' = CBody /\ Permutation (cat_rules c) (cat_rules c') /\
  select_best_matcher c path <> select_best_matcher c' path.
Proof.
  exists (mkCat CBody [(from_tokens [TRoot; TField (S_ "a"); TStar], rl_new RType);
                       (from_tokens [TRoot; TStar; TField (S_ "b")], rl_new RInteger)]).
  exists (mkCat CBody [(from_tokens [TRoot; TStar; TField (S_ "b")], rl_new RInteger);
                       (from_tokens [TRoot; TField (S_ "a"); TStar], rl_new RType)]).
  exists [S_ "$"; S_ "a"; S_ "b"]. split; [reflexivity|]. split; [reflexivity|]. split; [constructor|].
  vm_compute. discriminate.
Qed.

(** Header and query rules: the first matching entry in map order is taken, even a less specific one. *)
Theorem C09_why_headers_agree : exists c c' path,
  cat_name c = CQuery /\ cat_name c' = CQuery /\ Permutation (cat_rules c) (cat_rules c') /\
  select_best_matcher c path <> select_best_matcher c' path.
Proof.
  exists (mkCat CQuery [(from_tokens [TRoot; TField (S_ "q")], rl_new RType);
                        (from_tokens [TRoot; TField (S_ "q"); TIndex 0], rl_new RInteger)]).
  exists (mkCat CQuery [(from_tokens [TRoot; TField (S_ "q"); TIndex 0], rl_new RInteger);
                        (from_tokens [TRoot; TField (S_ "q")], rl_new RType)]).
  exists [S_ "$"; S_ "q"; S_ "0"]. split; [reflexivity|]. split; [reflexivity|]. split; [constructor|].
  vm_compute. discriminate.
Qed.

Lemma filter_perm : forall A (f : A -> bool) l l', Permutation l l' -> Permutation (filter f l) (filter f l').
Proof.
  induction 1; cbn; try (destruct (f x)); try (destruct (f y)); auto; try constructor; auto.
  eapply perm_trans; eassumption.
Qed.
(** The other categories: all orders agree exactly when all entries that can be found agree. *)
Definition found (c : category) (path : list str) (e : docpath * rulelist) : Prop :=
  In e (cat_rules c) /\
  match cat_name c with CHeader | CQuery | CContents => candidate path (fst e) | _ => True end.
Theorem C09_first_entry_selection : forall c path, ~ by_specificity c ->
  ((forall c', cat_name c' = cat_name c -> Permutation (cat_rules c) (cat_rules c') ->
      select_best_matcher c' path = select_best_matcher c path) <->
   (forall e e', found c path e -> found c path e' -> snd e = snd e')).
Proof.
  intros c path NB.
  set (keep := fun e : docpath * rulelist =>
    match cat_name c with CHeader | CQuery | CContents => matches_path (fst e) path | _ => true end).
  assert (FI : forall e, found c path e <-> In e (filter keep (cat_rules c))).
  { intro e. unfold found. rewrite filter_In. unfold keep.
    destruct (cat_name c); try tauto; rewrite <- (candidate_iff path (fst e)); reflexivity. }
  assert (T : forall l : list (docpath * rulelist), filter (fun _ => true) l = l) by (induction l as [|? ? IH]; cbn; [|rewrite IH]; reflexivity).
  assert (SB : forall d, cat_name d = cat_name c ->
            select_best_matcher d path = match filter keep (cat_rules d) with (_, rl) :: _ => rl | [] => rl_default end).
  { intros d Nm. unfold select_best_matcher, resolve_matchers_for_path, as_rule_list, cat_filter, keep. rewrite Nm.
    destruct (cat_name c) eqn:N; try (exfalso; apply NB; unfold by_specificity; tauto); cbn [cat_rules]; rewrite ?T; reflexivity. }
  split.
  - intros H.
    assert (X : forall e, found c path e -> select_best_matcher c path = snd e).
    { intros e Fe. assert (K : keep e = true) by (apply FI in Fe; apply filter_In in Fe; apply Fe).
      destruct Fe as [I _]. apply in_split in I. destruct I as (l1 & l2 & I).
      set (c' := mkCat (cat_name c) (e :: l1 ++ l2)).
      assert (P : Permutation (cat_rules c) (cat_rules c')) by (rewrite I; apply Permutation_sym, Permutation_middle).
      rewrite <- (H c' eq_refl P), SB by reflexivity. cbn [cat_rules c' filter]. rewrite K. destruct e; reflexivity. }
    intros e e' Fe Fe'. rewrite <- (X e Fe), <- (X e' Fe'). reflexivity.
  - intros U c' Nm P. rewrite !SB by (exact Nm || reflexivity).
    pose proof (filter_perm _ keep _ _ P) as Q.
    destruct (filter keep (cat_rules c)) as [|e l] eqn:F; [apply Permutation_nil in Q; rewrite Q; reflexivity|].
    destruct (filter keep (cat_rules c')) as [|e' l'] eqn:F'; [apply Permutation_sym, Permutation_nil in Q; discriminate|].
    destruct e as [p rl], e' as [p' rl']. change (snd (p', rl') = snd (p, rl)). apply U; apply FI; [|left; reflexivity].
    apply (Permutation_in _ (Permutation_sym Q)). left. reflexivity.
Qed.

Example C09_example : forall path,
  path = [S_ "$"; S_ "a"; S_ "0"; S_ "b"] ->
  (forall e e', In e (cat_rules ex_cat) -> In e' (cat_rules ex_cat) -> specificity (fst e) = specificity (fst e') -> e = e').
Proof.
  intros path _ e e' H H'.
  assert (forall a b : docpath * rulelist, fst a = fst b -> snd a = snd b -> a = b) as X by (intros [] []; cbn; congruence).
  destruct H as [<-|[<-|[<-|[]]]], H' as [<-|[<-|[<-|[]]]]; vm_compute; intro E; try reflexivity; discriminate.
Qed.

(** ** C10: one rule *)
Theorem C10_rule_roundtrip : forall w r, writable w r ->
  exists r', rule_from_json w (rule_to_json r) = Ok r' /\ same_rule r r'.
Proof. intros w r W. apply (roundtrip_good w r W). apply le_n. Qed.

(** In particular the twenty plain kinds come back unchanged. *)
Theorem C10_plain_rule_roundtrip : forall w r, is_leaf r ->
  (forall l, r = RStatusCode (HStatusCodes l) -> Forall (fun c => c < 65536) l (* they are u16 *)) ->
  rule_from_json w (rule_to_json r) = Ok r.
Proof.
  intros w r L C.
  destruct (C10_rule_roundtrip w r) as (r' & E & S).
  - constructor; [exact L|]. destruct r; try exact I; try contradiction. destruct s; try exact I. apply C. reflexivity.
  - inversion S; subst; try contradiction. exact E.
Qed.

(** Every rule whose variants are keyed by readable paths comes back, up to what the JSON
    form does not carry: the value type and the text of an each-key / each-value definition. *)
Theorem C10_rule_comes_back : forall w r, readable w r ->
  exists r', rule_from_json w (rule_to_json r) = Ok r' /\ comes_back r r'.
Proof. exact rule_comes_back. Qed.

(** Writing aborts exactly when a definition still holds an unresolved reference. *)
Theorem C10_writing_aborts_exactly_when : forall r,
  (rule_all resolved_here r -> rule_to_json_outcome r = Ok (rule_to_json r)) /\
  (~ rule_all resolved_here r -> rule_to_json_outcome r = Panic).
Proof.
  intro r. unfold rule_to_json_outcome. split; intro H.
  - apply has_unresolved_iff in H. rewrite H. reflexivity.
  - destruct (has_unresolved r) eqn:E; [reflexivity|]. exfalso. apply H, has_unresolved_iff, E.
Qed.
Theorem C10_why_resolved : exists r, rule_to_json_outcome r = Panic.
Proof. exists (REachValue (mkDef [] VUnknown [inr (S_ "name")] [])). reflexivity. Qed.

(** The conditions matter: each-key / each-value rules lose their text (the expression and
    the value type are not written) and for array-contains variants. *)
Theorem C10_why_writable : forall w,
  (let r := REachKey (mkDef (S_ "a") VString [inl RType] (S_ "matching(type, 'a')")) in
   exists r', rule_from_json w (rule_to_json r) = Ok r' /\ ~ same_rule r r' /\ rule_eqb r r' = false) /\
  (* a variant whose rules are keyed by the field "matchers" comes back empty *)
  (let r := RArrayContains [(0, mkCat CBody [(mkPath [TRoot; TField (S_ "matchers")] (S_ "matchers"), rl_new RType)])] in
   exists r', rule_from_json w (rule_to_json r) = Ok r' /\ ~ same_rule r r').
Proof.
  intro w. split.
  - eexists. split; [reflexivity|]. split; [intro H; inversion H; discriminate|reflexivity].
  - eexists. split; [reflexivity|]. intro H. inversion H as [|? ? H1| |].
    inversion H1 as [|? ? ? ? (_ & _ & perm & P & F) _]; subst. cbn in P, F. inversion F; subst.
    apply Permutation_sym, Permutation_nil in P. discriminate.
Qed.

Example C10_example : forall w, writable w (RArrayContains
  [(1, mkCat CBody [(from_tokens [TRoot; TField (S_ "a")], mkRules [RRegex (S_ "\d+"); RMinMaxType 1 5] Or false)]);
   (2, mkCat CBody [(path_root, mkRules [REachKey (mkDef (S_ "v") VUnknown [inl (RStatusCode (HStatusCodes [200; 404]))] [])] And false)])]).
Proof.
  intro w. apply ra_arr.
  - cbn. repeat constructor; cbn; try reflexivity; try discriminate; try tauto.
  - constructor; [repeat constructor|]. constructor; [|constructor]. cbn [snd cat_rules].
    constructor; [|constructor]. cbn [snd rl_rules]. constructor; [|constructor].
    apply ra_key; [cbn; repeat constructor|].
    intros r [E|[]]. injection E as <-. constructor; [exact I|]. cbn. repeat constructor.
Qed.

(** ** C11: collections, V3/V4 form *)
Theorem C11_collection_roundtrip : forall w m, collection_ok w m ->
  exists m', matchers_from_json w (Some (mr_to_v3_json m)) = Ok m' /\ same_collection m m'.
Proof. exact collection_roundtrip. Qed.

(** The conditions matter: two header paths with the same first field are written under one key ... *)
Theorem C11_why_one_field : forall w, exists m m',
  NoDup (map fst m) /\ matchers_from_json w (Some (mr_to_v3_json m)) = Ok m' /\ ~ same_collection m m'.
Proof.
  intro w.
  exists [(CQuery, mkCat CQuery [(from_tokens [TRoot; TField (S_ "q")], rl_new RType);
                                 (from_tokens [TRoot; TField (S_ "q"); TIndex 0], rl_new RInteger)])].
  eexists. split; [repeat constructor; intros []|]. split; [reflexivity|].
  intros (perm & P & F). cbn in P, F. apply Permutation_length_1_inv in P. subst perm.
  inversion F as [|? ? ? ? (_ & _ & perm & P & F2) _]; subst. cbn in P, F2.
  apply Permutation_length in P. inversion F2; subst. inversion H3; subst. discriminate.
Qed.

(** ... a header called "matchers" is not read back ... *)
Theorem C11_why_not_matchers : forall w, exists m m',
  matchers_from_json w (Some (mr_to_v3_json m)) = Ok m' /\ ~ same_collection m m'.
Proof.
  intro w.
  exists [(CHeader, mkCat CHeader [(from_tokens [TRoot; TField (S_ "matchers")], rl_new RType)])].
  eexists. split; [reflexivity|].
  intros (perm & P & F). cbn in P, F. inversion F; subst. apply Permutation_sym, Permutation_nil in P. discriminate.
Qed.

(** ... and a path rule below the root is not written at all. *)
Theorem C11_why_root_path_rule : forall w, exists m m',
  matchers_from_json w (Some (mr_to_v3_json m)) = Ok m' /\ ~ same_collection m m'.
Proof.
  intro w. exists [(CPath, mkCat CPath [(from_tokens [TRoot; TIndex 1], rl_new RType)])].
  eexists. split; [reflexivity|].
  intros (perm & P & F). cbn in P, F. inversion F; subst. apply Permutation_sym, Permutation_nil in P. discriminate.
Qed.

Definition ex_coll : matching_rules :=
  [(CPath, mkCat CPath [(path_empty, rl_new (RRegex (S_ "/a/\d+")))]);
   (CHeader, mkCat CHeader [(from_tokens [TRoot; TField (S_ "X-A")], mkRules [RType; RNotEmpty] Or false)]);
   (CBody, mkCat CBody [(path_root, rl_new RType); (from_tokens [TRoot; TField (S_ "b"); TStarIndex], rl_new (RMinType 2))]);
   (CStatus, mkCat CStatus [(path_empty, rl_new (RStatusCode HSuccess))])].
Example C11_example : forall w, collection_ok w ex_coll.
Proof.
  intro w. split; [repeat constructor; cbn; intuition discriminate|].
  repeat constructor; cbn; try reflexivity; try discriminate; try (intuition discriminate).
  eexists. split; [reflexivity|discriminate].
Qed.

(** ** C12: V2 form *)
Definition v2_writable (w : world) (c : category) : Prop :=
  cat_name c = CBody /\
  NoDup (map (fun pr => path_tokens (fst pr)) (cat_rules c)) /\
  Forall (fun pr => path_new (uni_alpha w) (uni_numeric w) (path_expr (fst pr)) = Ok (fst pr) /\
                    one_dollar (path_expr (fst pr)) /\
                    exists r rest, rl_rules (snd pr) = r :: rest /\ writable w r) (cat_rules c).
Theorem C12_v2_body_rules_keep_first_rule : forall w c, v2_writable w c -> cat_rules c <> [] ->
  exists perm res, matchers_from_json w (Some (mr_to_v2_json [(CBody, c)])) = Ok [(CBody, mkCat CBody res)] /\
    Permutation (cat_rules c) perm /\ Forall2 first_rule_entry perm res.
Proof.
  intros w c (Nm & ND & F) NE. destruct (v2_roundtrip w c Nm ND F) as (perm & res & E & P & F2).
  exists perm, res. split; [|split; assumption]. rewrite E.
  destruct res; [|reflexivity]. inversion F2; subst. apply Permutation_sym, Permutation_nil in P. congruence.
Qed.

(** A dollar sign inside a field name is rewritten too: the rule moves to another path. *)
Theorem C12_why_one_dollar : forall w, exists c m',
  matchers_from_json w (Some (mr_to_v2_json [(CBody, c)])) = Ok m' /\
  cat_rules c = [(from_tokens [TRoot; TField (S_ "a$")], rl_new RType)] /\
  m' = [(CBody, mkCat CBody [(from_tokens [TRoot; TField (S_ "a$.body")], rl_new RType)])].
Proof.
  intro w. exists (mkCat CBody [(from_tokens [TRoot; TField (S_ "a$")], rl_new RType)]).
  eexists. split; [reflexivity|]. split; reflexivity.
Qed.

(** A status or method rule written in V2 form makes the whole set unreadable. *)
Theorem C12_why_not_status : forall w, exists m e,
  matchers_from_json w (Some (mr_to_v2_json m)) = Err e /\ collection_ok w m.
Proof.
  intro w. exists [(CStatus, mkCat CStatus [(path_empty, rl_new (RStatusCode HSuccess))])].
  eexists. split; [reflexivity|]. split; [repeat constructor; intros []|].
  repeat constructor; cbn; try reflexivity; try discriminate; intros [].
Qed.

Example C12_example : forall w, v2_writable w (mkCat CBody
  [(path_root, rl_new RType); (from_tokens [TRoot; TField (S_ "b"); TStarIndex; TField (S_ "c d")], mkRules [RMinType 2; RType] And false)]).
Proof.
  intro w. split; [reflexivity|]. split; [repeat constructor; cbn; intuition discriminate|].
  repeat constructor; cbn; try reflexivity.
  - exists []. split; [reflexivity|intros []].
  - exists RType, []. split; [reflexivity|]. repeat constructor.
  - exists (S_ ".b[*]['c d']"). split; [reflexivity|]. cbn. intuition discriminate.
  - exists (RMinType 2), [RType]. split; [reflexivity|]. repeat constructor.
Qed.

(** ** C13: equality and hashing of rules *)
Theorem C13_equality_reflexive : forall a, rep_ok a -> rule_eqb a a = true.
Proof. exact rule_eqb_refl. Qed.
Theorem C13_equality_symmetric : forall a b, rep_ok a -> rep_ok b -> rule_eqb a b = true -> rule_eqb b a = true.
Proof. intros a b Wa Wb. apply rule_eqb_sym; assumption. Qed.
Theorem C13_equality_transitive : forall a b c, rule_eqb a b = true -> rule_eqb b c = true -> rule_eqb a c = true.
Proof. exact rule_eqb_trans. Qed.
Theorem C13_equal_rules_hash_equally : forall a b, rep_ok a -> rep_ok b -> rule_eqb a b = true -> rule_hash a = rule_hash b.
Proof. intros a b Wa Wb. apply rule_hash_ok; assumption. Qed.

(** Equal rules mean the same, if no status code rule occurs in them. *)
Theorem C13_equal_rules_mean_the_same : forall a b,
  rep_ok a -> rep_ok b -> plain_rule a -> plain_rule b -> rule_eqb a b = true -> same_rule a b.
Proof. intros a b Wa Wb Pa Pb. apply rule_eqb_same; assumption. Qed.

(** Status code rules are all equal, so removing duplicates drops a rule that is not one. *)
Theorem C13_why_no_status :
  rule_eqb (RStatusCode HSuccess) (RStatusCode HServerError) = true /\
  remove_duplicates (mkRules [RStatusCode HSuccess; RStatusCode HServerError] Or false) =
    mkRules [RStatusCode HSuccess] Or false.
Proof. split; reflexivity. Qed.

Example C13_example :
  let a := RArrayContains [(0, mkCat CBody [(from_tokens [TRoot; TField (S_ "a")], rl_new RType); (path_root, rl_new RNumber)])] in
  let b := RArrayContains [(0, mkCat CBody [(path_root, rl_new RNumber); (from_tokens [TRoot; TField (S_ "a")], rl_new RType)])] in
  rep_ok a /\ rep_ok b /\ plain_rule a /\ plain_rule b /\ rule_eqb a b = true /\ a <> b.
Proof.
  cbn zeta. repeat split; try (apply ra_arr); try (repeat constructor; cbn; intuition discriminate); try reflexivity; discriminate.
Qed.
