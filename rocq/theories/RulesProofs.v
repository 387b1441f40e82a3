(** Proofs about matching rules: selection, (de)serialisation, equality. *)
From Coq Require Import String List NArith ZArith Lia Bool Permutation Sorted.
From Verif Require Import Base PathExp SpecPath PathExpProofs PropPath Json MatchingRules SpecRules.
Import ListNotations.
Open Scope N_scope.
Local Opaque show_N two64.

(** * Selection *)
Lemma max_by_key_none : forall A (f : A -> N) l, max_by_key f l = None <-> l = [].
Proof.
  intros A f [|x l]; split; intro H; try reflexivity; try discriminate.
  cbn in H. destruct (max_by_key f l) as [y|]; [destruct (f y <? f x)|]; discriminate.
Qed.

Lemma max_by_key_max : forall A (f : A -> N) l x, max_by_key f l = Some x ->
  In x l /\ forall y, In y l -> f y <= f x.
Proof.
  induction l as [|a l IH]; intros x H; [discriminate|].
  cbn in H. destruct (max_by_key f l) as [y|] eqn:E.
  - destruct (IH y eq_refl) as [I M]. destruct (N.ltb_spec (f y) (f a)) as [L|L]; injection H as <-.
    + split; [left; reflexivity|]. intros z [<-|Z]; [lia|]. specialize (M z Z). lia.
    + split; [right; exact I|]. intros z [<-|Z]; [lia|]. apply M, Z.
  - injection H as <-. apply max_by_key_none in E. subst. split; [left; reflexivity|].
    intros z [<-|[]]. lia.
Qed.


(** Scores of short paths do not wrap. *)
Lemma pow58 : forall k n, (k <= n)%nat -> (n <= 58)%nat -> 2 ^ N.of_nat k * N.of_nat n < two64.
Proof.
  intros k n K L.
  assert (2 ^ N.of_nat k <= 2 ^ 58) by (apply N.pow_le_mono_r; lia).
  assert (2 ^ N.of_nat k * N.of_nat n <= 2 ^ 58 * 58).
  { apply N.mul_le_mono; lia. }
  eapply N.le_lt_trans; [exact H0|]. vm_compute. reflexivity.
Qed.

Lemma exact_steps_le : forall ts, (exact_steps ts <= length ts)%nat.
Proof. induction ts as [|[] ts IH]; cbn; lia. Qed.

Lemma path_score_value : forall p path, (length (path_tokens p) <= 58)%nat -> matching_path path p ->
  path_score path p = specificity p.
Proof.
  intros p path L A. unfold path_score, specificity.
  pose proof (exact_steps_le (path_tokens p)).
  rewrite weight_value_short; [|lia|exact A].
  cbn [fst snd]. apply N.mod_small. apply pow58; lia.
Qed.

Lemma weight_pos_iff : forall p path, (length (path_tokens p) <= 58)%nat ->
  (0 <? fst (path_weight p path)) = true <-> matching_path path p.
Proof.
  intros p path L. pose proof (exact_steps_le (path_tokens p)).
  apply (matches_prefix_short p path). lia.
Qed.

(** * Sorted maps built by insertion *)
Lemma obj_insert_fresh : forall A k (v : A) m, ~ In k (keys m) -> Permutation (obj_insert k v m) ((k, v) :: m).
Proof.
  induction m as [|[k' x] m IH]; cbn; intro F; [reflexivity|].
  destruct (str_compare k k') eqn:C.
  - apply str_compare_eq in C. subst. exfalso. apply F. left; reflexivity.
  - reflexivity.
  - rewrite IH by tauto. apply perm_swap.
Qed.

Lemma fold_insert_perm : forall A B (f : A -> str) (g : A -> B) l m,
  NoDup (map f l) -> (forall x, In x l -> ~ In (f x) (keys m)) ->
  Permutation (fold_left (fun m x => obj_insert (f x) (g x) m) l m) (map (fun x => (f x, g x)) l ++ m).
Proof.
  induction l as [|x l IH]; intros m ND F; [reflexivity|].
  cbn. inversion ND; subst. rewrite IH.
  - rewrite (obj_insert_fresh _ (f x) (g x) m) by (apply F; left; reflexivity).
    symmetry. apply Permutation_middle.
  - assumption.
  - intros y Y. rewrite obj_insert_keys. intros [E|E].
    + apply H1. rewrite <- E. apply in_map, Y.
    + apply (F y); [right; exact Y|exact E].
Qed.

Lemma fold_insert_sorted : forall A B (f : A -> str) (g : A -> B) l m,
  StronglySorted str_lt (keys m) ->
  StronglySorted str_lt (keys (fold_left (fun m x => obj_insert (f x) (g x) m) l m)).
Proof. induction l as [|x l IH]; intros m S; [exact S|]. cbn. apply IH, obj_insert_sorted, S. Qed.

Lemma NoDup_map_perm : forall A B (f : A -> B) l l', Permutation l l' -> NoDup (map f l) -> NoDup (map f l').
Proof. intros. eapply Permutation_NoDup; [apply Permutation_map, H|assumption]. Qed.

(** * Depth *)
Lemma depth_arr : forall l x, In x l -> (json_depth x < json_depth (JArr l))%nat.
Proof.
  intros l x I. cbn. apply Nat.lt_succ_r. induction l as [|y l IH]; [contradiction|].
  destruct I as [->|I]; [apply Nat.le_max_l|]. etransitivity; [apply IH, I|apply Nat.le_max_r].
Qed.
Lemma depth_obj : forall m k v, In (k, v) m -> (json_depth v < json_depth (JObj m))%nat.
Proof.
  intros m k v I. cbn. apply Nat.lt_succ_r. induction m as [|[k' y] m IH]; [contradiction|].
  destruct I as [E|I]; [injection E as -> ->; apply Nat.le_max_l|].
  etransitivity; [apply IH, I|apply Nat.le_max_r].
Qed.

(** * Loading one rule list *)
Definition reads (w : world) (rj : json -> outcome rule rule_error) (r : rule) (r' : rule) : Prop :=
  rj (rule_to_json r) = Ok r'.

Lemma path_eqb_refl : forall p, path_eqb p p = true.
Proof. intro p. apply str_eqb_refl. Qed.

Lemma hm_push_absent : forall k r l m, ~ In (path_expr k) (path_texts m) ->
  hm_push k r l m = m ++ [(k, mkRules [r] l false)].
Proof.
  induction m as [|[k' rl] m IH]; intro F; [reflexivity|].
  cbn in *. unfold path_eqb. destruct (str_eqb_spec (path_expr k) (path_expr k')) as [E|E].
  - exfalso. apply F. left. congruence.
  - rewrite IH by tauto. reflexivity.
Qed.

Lemma hm_push_last : forall k r l l' rs m, ~ In (path_expr k) (path_texts m) ->
  hm_push k r l (m ++ [(k, mkRules rs l' false)]) = m ++ [(k, mkRules (rs ++ [r]) l' false)].
Proof.
  induction m as [|[k' rl] m IH]; intro F; cbn in *.
  - rewrite path_eqb_refl. reflexivity.
  - unfold path_eqb at 1. destruct (str_eqb_spec (path_expr k) (path_expr k')) as [E|E].
    + exfalso. apply F. left. congruence.
    + rewrite IH by tauto. reflexivity.
Qed.

Section Load.
Variable w : world.
Variable rj : json -> outcome rule rule_error.

Lemma foldM_push_more : forall rs rs' acc nm k l m,
  Forall2 (reads w rj) rs rs' -> ~ In (path_expr k) (path_texts m) ->
  foldM (cat_rule_from_json rj k l) (map rule_to_json rs) (mkCat nm (m ++ [(k, mkRules acc l false)])) =
  Ok (mkCat nm (m ++ [(k, mkRules (acc ++ rs') l false)])).
Proof.
  induction rs as [|r rs IH]; intros rs' acc nm k l m F NI; inversion F; subst.
  - cbn. rewrite app_nil_r. reflexivity.
  - cbn [map foldM]. fold (foldM (cat_rule_from_json rj k l)).
    unfold cat_rule_from_json at 1. unfold reads in H1. rewrite H1. cbn [bind].
    unfold cat_add_rule. cbn [cat_rules cat_name]. rewrite hm_push_last by exact NI.
    rewrite (IH l' (acc ++ [y])) by assumption. rewrite <- app_assoc. reflexivity.
Qed.

Lemma foldM_push : forall rs rs' nm k l m,
  rs <> [] -> Forall2 (reads w rj) rs rs' -> ~ In (path_expr k) (path_texts m) ->
  foldM (cat_rule_from_json rj k l) (map rule_to_json rs) (mkCat nm m) =
  Ok (mkCat nm (m ++ [(k, mkRules rs' l false)])).
Proof.
  intros rs rs' nm k l m NE F NI. destruct rs as [|r rs]; [congruence|]. inversion F; subst.
  cbn [map foldM]. fold (foldM (cat_rule_from_json rj k l)).
  unfold cat_rule_from_json at 1. unfold reads in H1. rewrite H1. cbn [bind].
  unfold cat_add_rule. cbn [cat_rules cat_name]. rewrite hm_push_absent by exact NI.
  rewrite (foldM_push_more rs l' [y]) by assumption. reflexivity.
Qed.

Lemma logic_roundtrip : forall rl : rulelist, logic_from_json w (rl_to_v3_json rule_to_json rl) = rl_logic rl.
Proof. intros [rs [] c]; reflexivity. Qed.

Lemma add_rule_list_ok : forall rl rs' nm k m,
  rl_rules rl <> [] -> Forall2 (reads w rj) (rl_rules rl) rs' -> ~ In (path_expr k) (path_texts m) ->
  add_rule_list w rj (mkCat nm m) k (rl_to_v3_json rule_to_json rl) =
  Ok (mkCat nm (m ++ [(k, mkRules rs' (rl_logic rl) false)])).
Proof.
  intros rl rs' nm k m NE F NI. unfold add_rule_list. rewrite logic_roundtrip.
  change (json_get (S_ "matchers") (rl_to_v3_json rule_to_json rl)) with (Some (JArr (map rule_to_json (rl_rules rl)))).
  cbn iota. apply foldM_push; assumption.
Qed.

(** Loading every entry of a map, the path of an entry being computed by [mk]. *)
Lemma foldM_entries : forall (mk : str -> outcome docpath rule_error) (key : docpath -> str)
    (prs : list (docpath * rulelist)) nm m,
  (forall pr, In pr prs -> exists p', mk (key (fst pr)) = Ok p' /\ path_tokens p' = path_tokens (fst pr) /\
     rl_rules (snd pr) <> [] /\
     exists rs', Forall2 (reads w rj) (rl_rules (snd pr)) rs' /\ Forall2 same_rule (rl_rules (snd pr)) rs') ->
  (forall pr pr' p p', In pr prs -> In pr' prs -> mk (key (fst pr)) = Ok p -> mk (key (fst pr')) = Ok p' ->
     path_expr p = path_expr p' -> key (fst pr) = key (fst pr')) ->
  NoDup (map (fun pr => key (fst pr)) prs) ->
  (forall pr p, In pr prs -> mk (key (fst pr)) = Ok p -> ~ In (path_expr p) (path_texts m)) ->
  exists res, foldM (fun c kv => bind (mk (fst kv)) (fun p => add_rule_list w rj c p (snd kv)))
       (map (fun pr => (key (fst pr), rl_to_v3_json rule_to_json (snd pr))) prs) (mkCat nm m) =
    Ok (mkCat nm (m ++ res)) /\ Forall2 same_entry prs res.
Proof.
  intros mk key prs. induction prs as [|pr prs IH]; intros nm m H Inj ND Fr.
  - exists []. split; [cbn; rewrite app_nil_r; reflexivity|constructor].
  - destruct (H pr (or_introl eq_refl)) as (p' & E & T & NE & rs' & R & S).
    cbn [map foldM].
    match goal with |- context [foldM ?f] => fold (foldM f) end.
    cbn [fst snd]. rewrite E. cbn [bind].
    rewrite (add_rule_list_ok _ rs') by (assumption || (eapply Fr; [left; reflexivity|exact E])).
    inversion ND as [|? ? NI ND']; subst.
    destruct (IH nm (m ++ [(p', mkRules rs' (rl_logic (snd pr)) false)])) as (res & E2 & F2).
    + intros q Q. apply H. right; exact Q.
    + intros q q' p1 p2 Q Q'. apply Inj; right; assumption.
    + exact ND'.
    + intros q p Q Ep. unfold path_texts. rewrite map_app, in_app_iff. cbn. intros [I|[I|[]]].
      * exact (Fr q p (or_intror Q) Ep I).
      * apply NI. apply in_map_iff. exists q. split; [|exact Q].
        eapply Inj; [right; exact Q|left; reflexivity|exact Ep|exact E|congruence].
    + exists ((p', mkRules rs' (rl_logic (snd pr)) false) :: res). split.
      * cbn [bind]. rewrite E2. rewrite <- app_assoc. reflexivity.
      * constructor; [|exact F2]. split; [cbn; congruence|]. split; [reflexivity|exact S].
Qed.
End Load.

(** * Round trip of one rule *)
Lemma rule_all_here : forall P r, rule_all P r -> P r.
Proof. intros P r H. inversion H; assumption. Qed.

Lemma codes_roundtrip : forall l, Forall (fun c => c < 65536) l ->
  codes_from_json (map (fun c => JNum (PosInt c)) l) = Some l.
Proof.
  induction 1 as [|c l H F IH]; [reflexivity|].
  cbn [map codes_from_json code_from_json]. rewrite IH, N.mod_small by exact H. reflexivity.
Qed.

Lemma Forall2_exists : forall A B (P Q : A -> B -> Prop) l,
  (forall x, In x l -> exists y, P x y /\ Q x y) -> exists l', Forall2 P l l' /\ Forall2 Q l l'.
Proof.
  induction l as [|x l IH]; intro H.
  - exists []. split; constructor.
  - destruct (H x (or_introl eq_refl)) as (y & P1 & Q1).
    destruct IH as (l' & P2 & Q2); [intros z Z; apply H; right; exact Z|].
    exists (y :: l'). split; constructor; assumption.
Qed.

Lemma Forall2_impl' : forall A B (P Q : A -> B -> Prop), (forall a b, P a b -> Q a b) ->
  forall l l', Forall2 P l l' -> Forall2 Q l l'.
Proof. intros A B P Q H l l' F. induction F; constructor; auto. Qed.

Lemma mapM_ok : forall A B C E (f : B -> outcome C E) (g : A -> B) l l',
  Forall2 (fun x y => f (g x) = Ok y) l l' -> mapM f (map g l) = Ok l'.
Proof.
  induction 1 as [|x y l l' H F IH]; [reflexivity|].
  cbn [map mapM]. fold (mapM f). rewrite H. cbn [bind]. rewrite IH. reflexivity.
Qed.

Section RoundTrip.
Variable w : world.
Let good (r : rule) : Prop := forall fuel, (json_depth (rule_to_json r) <= fuel)%nat ->
  exists r', rule_from_json_fuel w fuel (rule_to_json r) = Ok r' /\ same_rule r r'.

Lemma leaf_good : forall r, is_leaf r -> writable_here w r -> good r.
Proof.
  intros r L W fuel D. destruct fuel as [|f]; [destruct r; cbn in D; lia|].
  exists r. split; [|constructor; exact L].
  destruct r; cbn [is_leaf] in L; try contradiction; try reflexivity.
  destruct s; try reflexivity.
  cbn [writable_here] in W. cbn [rule_from_json_fuel].
  change (from_json_with w (rule_from_json_fuel w f) (rule_to_json (RStatusCode (HStatusCodes codes))))
    with (match option_map HStatusCodes (codes_from_json (map (fun c => JNum (PosInt c)) codes)) with
          | Some st => Ok (RStatusCode st) | None => Err BadStatus end : outcome rule rule_error).
  rewrite codes_roundtrip by exact W. reflexivity.
Qed.

(** A definition. *)
Lemma def_good : forall d nm f,
  writable_here w (REachKey d) -> (forall r, In (inl r) (def_rules d) -> good r) ->
  (json_depth (def_to_json rule_to_json nm d) <= S f)%nat ->
  exists d', def_from_json w (rule_from_json_fuel w f)
     ([(S_ "match", JStr nm);
       (S_ "rules", JArr (map (fun x => match x with inl r => rule_to_json r | inr _ => JNull end) (def_rules d)))]
        ++ match def_value d with [] => [] | v => [(S_ "value", JStr v)] end) = Ok d' /\
    def_value d = def_value d' /\ def_type d = def_type d' /\ def_expr d = def_expr d' /\
    Forall2 (item_rel same_rule) (def_rules d) (def_rules d').
Proof.
  intros d nm f (Ty & Ex & Res) G D.
  assert (M : exists rs, mapM (rule_from_json_fuel w f)
             (map (fun x : rule + str => match x with inl r => rule_to_json r | inr _ => JNull end) (def_rules d)) = Ok rs /\
             Forall2 (item_rel same_rule) (def_rules d) (map inl rs)).
  { assert (Dp : forall x, In x (def_rules d) -> (json_depth (match x with inl r => rule_to_json r | inr _ => JNull end) <= f)%nat).
    { intros x X.
      assert (X' : In (match x with inl r => rule_to_json r | inr _ => JNull end)
                 (map (fun x : rule + str => match x with inl r => rule_to_json r | inr _ => JNull end) (def_rules d)))
        by (apply in_map_iff; exists x; auto).
      apply depth_arr in X'.
      pose proof (depth_obj _ (S_ "rules")
        (JArr (map (fun x : rule + str => match x with inl r => rule_to_json r | inr _ => JNull end) (def_rules d)))
        (or_intror (or_introl eq_refl) : In _ ([(S_ "match", JStr nm); (S_ "rules", _)] ++
           match def_value d with [] => [] | v => [(S_ "value", JStr v)] end))) as DO.
      unfold def_to_json in D. lia. }
    clear D Ty Ex. induction (def_rules d) as [|x l IH].
    - exists []. split; [reflexivity|constructor].
    - inversion Res as [|? ? R1 R2]; subst.
      destruct IH as (rs & E & F); [exact R2| | |].
      { intros r I. apply G. right; exact I. }
      { intros y Y. apply Dp. right; exact Y. }
      destruct x as [r|n]; [|contradiction].
      destruct (G r (or_introl eq_refl) f (Dp (inl r) (or_introl eq_refl))) as (r' & E' & S').
      exists (r' :: rs). split.
      + cbn [map mapM]. fold (mapM (rule_from_json_fuel w f)). rewrite E'. cbn [bind]. rewrite E. reflexivity.
      + cbn [map]. constructor; [constructor; exact S'|exact F]. }
  destruct M as (rs & E & F).
  exists (mkDef (def_value d) VUnknown (map inl rs) []).
  split; [|cbn [def_value def_type def_expr def_rules]; auto].
  unfold def_from_json, rules_from_json.
  replace (obj_get (S_ "rules") _) with
    (Some (JArr (map (fun x : rule + str => match x with inl r => rule_to_json r | inr _ => JNull end) (def_rules d))))
    by reflexivity.
  rewrite E. cbn [bind]. f_equal. f_equal. destruct (def_value d); reflexivity.
Qed.

Lemma cat_good : forall c f,
  cat_name c = CBody -> NoDup (path_texts (cat_rules c)) -> Forall (entry_writable w) (cat_rules c) ->
  (forall pr r, In pr (cat_rules c) -> In r (rl_rules (snd pr)) -> good r) ->
  (json_depth (cat_to_v3_json rule_to_json c) <= f)%nat ->
  exists c', add_rules_from_json w (rule_from_json_fuel w f) (cat_empty CBody) (cat_to_v3_json rule_to_json c) = Ok c' /\
    same_category c c'.
Proof.
  intros [nm prs] f Nm ND EW G D. cbn [cat_name cat_rules] in *. subst nm.
  unfold cat_to_v3_json in *. cbn [cat_name cat_rules v3_key] in *.
  set (m := fold_left _ prs []) in *.
  assert (P : Permutation m (map (fun pr => (path_expr (fst pr), rl_to_v3_json rule_to_json (snd pr))) prs)).
  { unfold m. pose proof (fold_insert_perm _ _ (fun pr : docpath * rulelist => path_expr (fst pr))
      (fun pr => rl_to_v3_json rule_to_json (snd pr)) prs []) as Q.
    rewrite app_nil_r in Q. apply Q; [exact ND|intros ? ? []]. }
  apply Permutation_map_inv in P. destruct P as (prs' & Em & Pm).
  assert (EW' : Forall (entry_writable w) prs') by (eapply Permutation_Forall; eassumption).
  assert (NM : obj_has (S_ "matchers") m = false).
  { unfold obj_has. destruct (obj_get (S_ "matchers") m) eqn:E; [|reflexivity].
    apply obj_get_in in E. rewrite Em in E. apply in_map_iff in E. destruct E as (pr & E & I).
    rewrite Forall_forall in EW'. destruct (EW' pr I) as (_ & NE & _). exfalso; apply NE. exact (f_equal fst E). }
  unfold add_rules_from_json. cbn [cat_empty cat_name cat_eqb cat_index]. change (4 =? 1) with false. cbn [andb].
  rewrite NM.
  destruct (foldM_entries w (rule_from_json_fuel w f) (path_new_w w) path_expr prs' CBody []) as (res & E & F).
  - intros pr I. rewrite Forall_forall in EW'. destruct (EW' pr I) as (PN & _ & NE).
    exists (fst pr). unfold path_new_w. rewrite PN. repeat split; try assumption.
    apply Forall2_exists. intros r R.
    apply Permutation_sym in Pm.
    pose proof (G pr r (Permutation_in _ Pm I) R) as Gr.
    assert (Dr : (json_depth (rule_to_json r) <= f)%nat).
    { assert (I' : In (path_expr (fst pr), rl_to_v3_json rule_to_json (snd pr)) m).
      { rewrite Em. apply in_map_iff. exists pr. auto. }
      apply depth_obj in I'.
      assert (I2 : In (rule_to_json r) (map rule_to_json (rl_rules (snd pr)))) by (apply in_map; exact R).
      apply depth_arr in I2.
      pose proof (depth_obj [(S_ "combine", logic_to_json (rl_logic (snd pr))); (S_ "matchers", JArr (map rule_to_json (rl_rules (snd pr))))]
        (S_ "matchers") _ (or_intror (or_introl eq_refl))) as I3.
      unfold rl_to_v3_json in I'. lia. }
    destruct (Gr f Dr) as (r' & E1 & S1). exists r'. split; assumption.
  - intros pr pr' p p' I I' E1 E2 E3. rewrite Forall_forall in EW'.
    destruct (EW' pr I) as (PN & _ & _). destruct (EW' pr' I') as (PN' & _ & _).
    unfold path_new_w in *. rewrite PN in E1. rewrite PN' in E2. congruence.
  - apply (NoDup_map_perm _ _ (fun pr : docpath * rulelist => path_expr (fst pr)) _ _ Pm ND).
  - intros ? ? ? ? [].
  - rewrite Em. unfold cat_empty. rewrite E. exists (mkCat CBody res). split; [reflexivity|].
    split; [reflexivity|]. exists prs'. split; [exact Pm|exact F].
Qed.

Lemma roundtrip_good : forall r, writable w r -> good r.
Proof.
  refine (rule_ind' (fun r => writable w r -> good r) _ _ _ _).
  - intro r. destruct r; try exact I; intro W; apply leaf_good; try exact I; exact (rule_all_here _ _ W).
  - intros vs H W. inversion W as [? L|? Wh Wn| |]; subst; [contradiction|]. cbn [writable_here] in Wh.
    intros fuel D. destruct fuel as [|f]; [cbn in D; lia|].
    assert (Dv : forall i c, In (i, c) vs -> (json_depth (cat_to_v3_json rule_to_json c) <= f)%nat).
    { intros i c I.
      set (g := fun v : N * category => match v with (i, c) => JObj [(S_ "index", JNum (PosInt i)); (S_ "rules", cat_to_v3_json rule_to_json c)] end).
      assert (I1 : In (g (i, c)) (map g vs)) by (apply in_map; exact I).
      apply depth_arr in I1.
      pose proof (depth_obj [(S_ "match", JStr (S_ "arrayContains")); (S_ "variants", JArr (map g vs))] (S_ "variants") _
        (or_intror (or_introl eq_refl))) as I2.
      pose proof (depth_obj [(S_ "index", JNum (PosInt i)); (S_ "rules", cat_to_v3_json rule_to_json c)] (S_ "rules") _
        (or_intror (or_introl eq_refl))) as I3.
      change (rule_to_json (RArrayContains vs)) with
        (JObj [(S_ "match", JStr (S_ "arrayContains")); (S_ "variants", JArr (map g vs))]) in D.
      unfold g at 1 in I1. lia. }
    assert (exists vs', Forall2 (fun v v' => variant_from_json w (rule_from_json_fuel w f)
        (match v with (i, c) => JObj [(S_ "index", JNum (PosInt i)); (S_ "rules", cat_to_v3_json rule_to_json c)] end) = Ok v') vs vs' /\
        Forall2 (fun v v' => fst v = fst v' /\ same_category (snd v) (snd v')) vs vs') as (vs' & E & S).
    { apply Forall2_exists. intros [i c] I. rewrite Forall_forall in H, Wh, Wn.
      specialize (H _ I). specialize (Wh _ I). specialize (Wn _ I). cbn [snd] in *. destruct Wh as (Nm & ND & EW).
      destruct (cat_good c f Nm ND EW) as (c' & E & S).
      - intros pr r Ipr Ir. unfold cat_all in H. rewrite Forall_forall in H, Wn.
        specialize (H _ Ipr). specialize (Wn _ Ipr). rewrite Forall_forall in H, Wn. apply H; [exact Ir|]. apply Wn, Ir.
      - eapply Dv, I.
      - exists (i, c'). split; [|split; [reflexivity|exact S]].
        unfold variant_from_json.
        change (json_get (S_ "rules") _) with (Some (cat_to_v3_json rule_to_json c)).
        cbn iota. rewrite E. reflexivity. }
    exists (RArrayContains vs'). split.
    + change (rule_from_json_fuel w (Datatypes.S f) (rule_to_json (RArrayContains vs))) with
        (bind (mapM (variant_from_json w (rule_from_json_fuel w f))
           (map (fun v : N * category => match v with (i, c) => JObj [(S_ "index", JNum (PosInt i)); (S_ "rules", cat_to_v3_json rule_to_json c)] end) vs))
         (fun vs => Ok (RArrayContains vs))).
      rewrite (mapM_ok _ _ _ _ _ _ vs vs') by exact E. reflexivity.
    + constructor. eapply Forall2_impl'; [|exact S]. intros a b (F1 & (F2 & F3)). repeat split; assumption.
  - intros d H W. inversion W as [? L| |? Wh Wn|]; subst; [contradiction|].
    intros fuel D. destruct fuel as [|f]; [cbn in D; lia|].
    destruct (def_good d (S_ "eachKey") f Wh) as (d' & E & E1 & E2 & E3 & F).
    + intros r I. unfold def_all in H. rewrite Forall_forall in H. apply (H (inl r) I). apply Wn, I.
    + exact D.
    + exists (REachKey d'). split; [|constructor; assumption].
      match type of E with def_from_json _ _ ?m = _ =>
        change (rule_from_json_fuel w (S f) (rule_to_json (REachKey d))) with
          (bind (def_from_json w (rule_from_json_fuel w f) m) (fun d => Ok (REachKey d))) end.
      rewrite E. reflexivity.
  - intros d H W. inversion W as [? L| | |? Wh Wn]; subst; [contradiction|].
    intros fuel D. destruct fuel as [|f]; [cbn in D; lia|].
    destruct (def_good d (S_ "eachValue") f Wh) as (d' & E & E1 & E2 & E3 & F).
    + intros r I. unfold def_all in H. rewrite Forall_forall in H. apply (H (inl r) I). apply Wn, I.
    + exact D.
    + exists (REachValue d'). split; [|constructor; assumption].
      match type of E with def_from_json _ _ ?m = _ =>
        change (rule_from_json_fuel w (S f) (rule_to_json (REachValue d))) with
          (bind (def_from_json w (rule_from_json_fuel w f) m) (fun d => Ok (REachValue d))) end.
      rewrite E. reflexivity.
Qed.
End RoundTrip.
