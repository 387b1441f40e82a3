(** Proofs about rule collections (V3 and V2 forms). *)
From Coq Require Import String List NArith ZArith Lia Bool Permutation Sorted.
From Verif Require Import Base PathExp SpecPath PathExpProofs PropPath Json MatchingRules SpecRules RulesProofs.
Import ListNotations.
Open Scope N_scope.
Local Opaque show_N two64.

Lemma cat_eqb_eq : forall a b, cat_eqb a b = true <-> a = b.
Proof. intros [] []; unfold cat_eqb, cat_index; split; intro H; try reflexivity; try discriminate. Qed.

Lemma category_from_display : forall w n, category_from w (cat_display n) = n.
Proof. intros w []; reflexivity. Qed.

Lemma cat_display_inj : forall a b, cat_display a = cat_display b -> a = b.
Proof. intros [] []; cbn; intro H; try reflexivity; discriminate. Qed.

Lemma mr_update_absent : forall n f m, ~ In n (map fst m) ->
  mr_update n f m = bind (f (cat_empty n)) (fun c => Ok (m ++ [(n, c)])).
Proof.
  induction m as [|[n' c] m IH]; intro F; [reflexivity|].
  cbn in *. destruct (cat_eqb n n') eqn:E.
  - apply cat_eqb_eq in E. subst. tauto.
  - rewrite IH by tauto. destruct (f (cat_empty n)); reflexivity.
Qed.

Lemma NoDup_map_inv' : forall A B (f : A -> B) l x y, NoDup (map f l) -> In x l -> In y l -> f x = f y -> x = y.
Proof.
  induction l as [|a l IH]; intros x y ND X Y E; [contradiction|].
  inversion ND; subst. destruct X as [->|X], Y as [->|Y]; auto.
  - exfalso. apply H1. rewrite E. apply in_map, Y.
  - exfalso. apply H1. rewrite <- E. apply in_map, X.
Qed.

Lemma NoDup_map_transfer : forall A B C (f : A -> B) (g : A -> C) l,
  NoDup (map f l) -> (forall x y, In x l -> In y l -> g x = g y -> f x = f y) -> NoDup (map g l).
Proof.
  induction l as [|a l IH]; intros ND H; [constructor|].
  inversion ND; subst. cbn. constructor.
  - intro I. apply in_map_iff in I. destruct I as (b & E & I).
    apply H2. rewrite (H a b); [apply in_map, I|left; reflexivity|right; exact I|congruence].
  - apply IH; [assumption|]. intros x y X Y. apply H; right; assumption.
Qed.

Section Coll.
Variable w : world.

Lemma rule_reads : forall r f, writable w r -> (json_depth (rule_to_json r) <= f)%nat ->
  exists r', rule_from_json_fuel w f (rule_to_json r) = Ok r' /\ same_rule r r'.
Proof. intros r f W D. exact (roundtrip_good w r W f D). Qed.

Lemma rules_read : forall rl f, Forall (writable w) (rl_rules rl) ->
  (json_depth (rl_to_v3_json rule_to_json rl) <= f)%nat ->
  exists rs', Forall2 (reads w (rule_from_json_fuel w f)) (rl_rules rl) rs' /\ Forall2 same_rule (rl_rules rl) rs'.
Proof.
  intros rl f W D. apply Forall2_exists. intros r R.
  rewrite Forall_forall in W. apply (rule_reads r f (W r R)).
  assert (I2 : In (rule_to_json r) (map rule_to_json (rl_rules rl))) by (apply in_map; exact R).
  apply depth_arr in I2.
  pose proof (depth_obj [(S_ "combine", logic_to_json (rl_logic rl)); (S_ "matchers", JArr (map rule_to_json (rl_rules rl)))]
    (S_ "matchers") _ (or_intror (or_introl eq_refl))) as I3.
  unfold rl_to_v3_json in D. lia.
Qed.

(** The value written for a category. *)
Definition enc (nc : category_name * category) : option json :=
  match fst nc with
  | CPath =>
      match hm_get path_empty (cat_rules (snd nc)) with
      | Some rl => Some (rl_to_v3_json rule_to_json rl)
      | None => match hm_get path_root (cat_rules (snd nc)) with
                | Some rl => Some (rl_to_v3_json rule_to_json rl)
                | None => None
                end
      end
  | _ => match cat_to_v3_json rule_to_json (snd nc) with JObj [] => None | v => Some v end
  end.

Lemma enc_fold : forall m acc,
  fold_left (fun acc nc =>
    match fst nc with
    | CPath =>
        match hm_get path_empty (cat_rules (snd nc)) with
        | Some rl => obj_insert (cat_display (fst nc)) (rl_to_v3_json rule_to_json rl) acc
        | None => match hm_get path_root (cat_rules (snd nc)) with
                  | Some rl => obj_insert (cat_display (fst nc)) (rl_to_v3_json rule_to_json rl) acc
                  | None => acc
                  end
        end
    | _ =>
        match cat_to_v3_json rule_to_json (snd nc) with
        | JObj [] => acc
        | v => obj_insert (cat_display (fst nc)) v acc
        end
    end) m acc =
  fold_left (fun acc nc => match enc nc with Some v => obj_insert (cat_display (fst nc)) v acc | None => acc end) m acc.
Proof.
  induction m as [|nc m IH]; intro acc; [reflexivity|]. cbn [fold_left]. rewrite IH. f_equal.
  unfold enc. destruct (fst nc);
    try (destruct (cat_to_v3_json rule_to_json (snd nc)) as [| | | | |[|]]; reflexivity).
  destruct (hm_get path_empty _); [reflexivity|]. destruct (hm_get path_root _); reflexivity.
Qed.

Definition entry_key (n : category_name) (pr : docpath * rulelist) : str := v3_key n (fst pr).

Lemma v3_key_tokens : forall n, n <> CPath -> forall prs, Forall (coll_entry_ok w n) prs ->
  NoDup (map (fun pr => path_tokens (fst pr)) prs) -> NoDup (map (entry_key n) prs).
Proof.
  intros n Hn prs F ND. eapply NoDup_map_transfer; [exact ND|].
  intros x y X Y E. rewrite Forall_forall in F.
  destruct (F x X) as (_ & _ & Px). destruct (F y Y) as (_ & _ & Py).
  unfold entry_key, v3_key, first_field in E.
  destruct n; try congruence;
    try (destruct Px as (f & Tx & _); destruct Py as (g & Ty & _); rewrite Tx, Ty in *; cbn in E; congruence);
    destruct Px as (Px & _); destruct Py as (Py & _); congruence.
Qed.

Lemma cat_json_perm : forall n c, n <> CPath -> cat_name c = n -> Forall (coll_entry_ok w n) (cat_rules c) ->
  NoDup (map (fun pr => path_tokens (fst pr)) (cat_rules c)) ->
  exists prs', Permutation (cat_rules c) prs' /\
    cat_to_v3_json rule_to_json c = JObj (map (fun pr => (entry_key n pr, rl_to_v3_json rule_to_json (snd pr))) prs').
Proof.
  intros n c Hn Nm F ND. unfold cat_to_v3_json. rewrite Nm.
  pose proof (fold_insert_perm _ _ (entry_key n)
      (fun pr => rl_to_v3_json rule_to_json (snd pr)) (cat_rules c) []) as Q.
  rewrite app_nil_r in Q.
  specialize (Q (v3_key_tokens n Hn _ F ND) (fun _ _ H => H)).
  apply Permutation_map_inv in Q. destruct Q as (prs' & E & P).
  exists prs'. split; [exact P|]. f_equal. exact E.
Qed.

Lemma v3_cat_read : forall n c, n <> CPath -> cat_name c = n -> Forall (coll_entry_ok w n) (cat_rules c) ->
  NoDup (map (fun pr => path_tokens (fst pr)) (cat_rules c)) ->
  exists c', add_v3_rules_from_json w (rj_for w (cat_to_v3_json rule_to_json c)) (cat_empty n)
       (cat_to_v3_json rule_to_json c) = Ok c' /\ same_category c c'.
Proof.
  intros n c Hn Nm F ND.
  destruct (cat_json_perm n c Hn Nm F ND) as (prs' & Pm & Em).
  rewrite Em.
  set (m := map _ prs') in *. set (f := json_depth (JObj m)).
  assert (F' : Forall (coll_entry_ok w n) prs') by (eapply Permutation_Forall; eassumption).
  assert (ND' : NoDup (map (entry_key n) prs')).
  { eapply NoDup_map_perm; [exact Pm|]. apply v3_key_tokens; assumption. }
  assert (Rd : forall pr, In pr prs' -> exists rs', Forall2 (reads w (rule_from_json_fuel w f)) (rl_rules (snd pr)) rs' /\
      Forall2 same_rule (rl_rules (snd pr)) rs').
  { intros pr I. rewrite Forall_forall in F'. destruct (F' pr I) as (_ & W & _).
    apply rules_read; [exact W|].
    assert (I' : In (entry_key n pr, rl_to_v3_json rule_to_json (snd pr)) m).
    { unfold m. apply in_map_iff. exists pr. auto. }
    apply depth_obj in I'. unfold f. lia. }
  assert (NM : obj_has (S_ "matchers") m = false).
  { unfold obj_has. destruct (obj_get (S_ "matchers") m) eqn:E; [|reflexivity].
    apply obj_get_in in E. unfold m in E. apply in_map_iff in E. destruct E as (pr & E & I).
    rewrite Forall_forall in F'. destruct (F' pr I) as (_ & _ & P). apply (f_equal fst) in E. cbn [fst] in E.
    unfold entry_key, v3_key, first_field in E. exfalso.
    destruct n; try congruence;
      try (destruct P as (g & T & NE); rewrite T in E; exact (NE E));
      destruct P as (_ & NE); exact (NE E). }
  assert (Fin : forall res, Forall2 same_entry prs' res -> same_category c (mkCat n res)).
  { intros res H. split; [exact Nm|]. exists prs'. split; assumption. }
  unfold add_v3_rules_from_json. cbn [cat_name cat_empty].
  assert (NP : cat_eqb n CPath = false).
  { destruct (cat_eqb n CPath) eqn:E; [apply cat_eqb_eq in E; congruence|reflexivity]. }
  rewrite NP. cbn [andb]. rewrite NM.
  destruct (cat_eqb n CQuery || cat_eqb n CHeader) eqn:HQ.
  - assert (n = CQuery \/ n = CHeader) as Hn2.
    { apply orb_true_iff in HQ. destruct HQ as [E|E]; apply cat_eqb_eq in E; auto. }
    assert (Tk : forall pr, In pr prs' -> exists f, path_tokens (fst pr) = [TRoot; TField f] /\ entry_key n pr = f).
    { intros pr I. rewrite Forall_forall in F'. destruct (F' pr I) as (_ & _ & P).
      unfold entry_key, v3_key, first_field.
      destruct Hn2 as [Hn2|Hn2]; rewrite Hn2 in *; destruct P as (g & T & _); exists g; (split; [exact T|]);
        rewrite T; reflexivity. }
    destruct (foldM_entries w (rule_from_json_fuel w f) (fun k => Ok (push_field path_root k)) (v3_key n) prs' n []) as (res & E & S).
    + intros pr I. destruct (Tk pr I) as (g & T & K). exists (push_field path_root g).
      unfold entry_key in K. rewrite K. split; [reflexivity|]. split; [symmetry; exact T|].
      rewrite Forall_forall in F'. split; [apply (F' pr I)|]. exact (Rd pr I).
    + intros pr pr' p p' I I' E1 E2 E3.
      injection E1 as <-. injection E2 as <-.
      assert (C1 : forall k, canonical (push_field path_root k)) by (intro; apply push_canonical; reflexivity).
      rewrite (C1 _), (C1 _) in E3. apply build_expr_inj in E3. cbn in E3. congruence.
    + exact ND'.
    + intros ? ? ? ? [].
    + exists (mkCat n res). split; [|apply Fin; exact S]. exact E.
  - assert (Pn : forall pr, In pr prs' -> path_new (uni_alpha w) (uni_numeric w) (path_expr (fst pr)) = Ok (fst pr) /\
        v3_key n (fst pr) = path_expr (fst pr)).
    { intros pr I. rewrite Forall_forall in F'. destruct (F' pr I) as (_ & _ & P).
      destruct n; try discriminate HQ; try congruence; (split; [apply P|reflexivity]). }
    destruct (foldM_entries w (rule_from_json_fuel w f) (path_new_w w) (v3_key n) prs' n []) as (res & E & S).
    + intros pr I. destruct (Pn pr I) as (P1 & K). exists (fst pr). rewrite K. unfold path_new_w. rewrite P1.
      rewrite Forall_forall in F'. split; [reflexivity|]. split; [reflexivity|]. split; [apply (F' pr I)|]. exact (Rd pr I).
    + intros pr pr' p p' I I' E1 E2 E3.
      destruct (Pn pr I) as (P1 & K1). destruct (Pn pr' I') as (P2 & K2).
      rewrite K1 in E1. rewrite K2 in E2. unfold path_new_w in E1, E2. rewrite P1 in E1. rewrite P2 in E2.
      injection E1 as <-. injection E2 as <-. congruence.
    + exact ND'.
    + intros ? ? ? ? [].
    + exists (mkCat n res). split; [|apply Fin; exact S]. exact E.
Qed.

Lemma path_cat_read : forall c, cat_name c = CPath -> Forall (coll_entry_ok w CPath) (cat_rules c) ->
  NoDup (map (fun pr => path_tokens (fst pr)) (cat_rules c)) -> cat_rules c <> [] ->
  exists rl, hm_get path_empty (cat_rules c) = Some rl /\
  exists c', add_v3_rules_from_json w (rj_for w (rl_to_v3_json rule_to_json rl)) (cat_empty CPath)
       (rl_to_v3_json rule_to_json rl) = Ok c' /\ same_category c c'.
Proof.
  intros [nm prs] Nm F ND NE. cbn [cat_name cat_rules] in *. subst nm.
  destruct prs as [|[p rl] prs]; [congruence|].
  inversion F as [|? ? (N1 & W & P) F2]; subst. cbn [fst snd] in *. subst p.
  destruct prs as [|[p2 rl2] prs].
  2:{ exfalso. inversion F2 as [|? ? (_ & _ & P2) _]; subst. cbn [fst] in P2. subst p2.
      inversion ND as [|? ? H _]; subst. apply H. left; reflexivity. }
  exists rl. split; [reflexivity|].
  destruct (rules_read rl (json_depth (rl_to_v3_json rule_to_json rl)) W (le_n _)) as (rs' & R & S).
  exists (mkCat CPath [(path_empty, mkRules rs' (rl_logic rl) false)]). split.
  - change (add_v3_rules_from_json w ?rj (cat_empty CPath) (rl_to_v3_json rule_to_json rl))
      with (add_rule_list w rj (mkCat CPath []) path_empty (rl_to_v3_json rule_to_json rl)).
    rewrite (add_rule_list_ok w _ rl rs') by (assumption || intros []). reflexivity.
  - split; [reflexivity|]. exists [(path_empty, rl)]. split; [apply Permutation_refl|].
    constructor; [|constructor]. split; [reflexivity|]. split; [reflexivity|exact S].
Qed.

Definition coll_cat_ok (nc : category_name * category) : Prop :=
  cat_name (snd nc) = fst nc /\ NoDup (map (fun pr => path_tokens (fst pr)) (cat_rules (snd nc))) /\
  Forall (coll_entry_ok w (fst nc)) (cat_rules (snd nc)).

Lemma cat_is_empty_iff : forall c : category, cat_is_empty c = true <-> cat_rules c = [].
Proof. intros [nm [|]]; cbn; split; congruence. Qed.

Lemma enc_read : forall nc, coll_cat_ok nc ->
  (has_rules nc = false -> enc nc = None) /\
  (has_rules nc = true -> exists v, enc nc = Some v /\
     exists c', add_v3_rules_from_json w (rj_for w v) (cat_empty (fst nc)) v = Ok c' /\ same_category (snd nc) c').
Proof.
  intros [n c] (Nm & ND & F). cbn [fst snd] in *. unfold has_rules. cbn [snd]. split; intro H.
  - apply negb_false_iff, cat_is_empty_iff in H. unfold enc. cbn [fst snd]. unfold cat_to_v3_json. rewrite H.
    destruct n; reflexivity.
  - assert (NE : cat_rules c <> []).
    { intro E. apply cat_is_empty_iff in E. rewrite E in H. discriminate. }
    destruct (cat_eqb n CPath) eqn:P.
    + apply cat_eqb_eq in P. rewrite P in *. destruct (path_cat_read c Nm F ND NE) as (rl & G & c' & E & S).
      exists (rl_to_v3_json rule_to_json rl). unfold enc. cbn [fst snd]. rewrite G. split; [reflexivity|]. exists c'. split; assumption.
    + assert (Hn : n <> CPath) by (intros ->; discriminate).
      destruct (v3_cat_read n c Hn Nm F ND) as (c' & E & S).
      exists (cat_to_v3_json rule_to_json c). split.
      * unfold enc. cbn [fst snd].
        destruct (cat_json_perm n c Hn Nm F ND) as (prs' & Pm & Em). rewrite Em in *.
        destruct prs' as [|x prs']; [apply Permutation_sym, Permutation_nil in Pm; congruence|].
        destruct n; try reflexivity. congruence.
      * exists c'. split; assumption.
Qed.

Lemma enc_fold_filter : forall m acc, Forall coll_cat_ok m ->
  fold_left (fun acc nc => match enc nc with Some v => obj_insert (cat_display (fst nc)) v acc | None => acc end) m acc =
  fold_left (fun acc nc => obj_insert (cat_display (fst nc)) (match enc nc with Some v => v | None => JNull end) acc)
    (filter has_rules m) acc.
Proof.
  induction m as [|nc m IH]; intros acc F; [reflexivity|].
  inversion F as [|? ? H F']; subst. cbn [fold_left filter].
  destruct (enc_read nc H) as (E0 & E1). destruct (has_rules nc) eqn:HR.
  - destruct (E1 eq_refl) as (v & E & _). cbn [fold_left]. rewrite E. apply IH, F'.
  - rewrite (E0 eq_refl). apply IH, F'.
Qed.

Lemma load_entries : forall l acc,
  (forall nc, In nc l -> coll_cat_ok nc /\ has_rules nc = true) -> NoDup (map fst l) ->
  (forall nc, In nc l -> ~ In (fst nc) (map fst acc)) ->
  exists res, foldM (fun m kv => mr_update (category_from w (fst kv)) (fun c => add_v3_rules_from_json w (rj_for w (snd kv)) c (snd kv)) m)
     (map (fun nc => (cat_display (fst nc), match enc nc with Some v => v | None => JNull end)) l) acc = Ok (acc ++ res) /\
    Forall2 (fun x y => fst x = fst y /\ same_category (snd x) (snd y)) l res.
Proof.
  induction l as [|nc l IH]; intros acc H ND Fr.
  - exists []. cbn. rewrite app_nil_r. split; [reflexivity|constructor].
  - destruct (H nc (or_introl eq_refl)) as (OK & HR).
    destruct (enc_read nc OK) as (_ & E1). destruct (E1 HR) as (v & E & c' & Rd & S).
    cbn [map foldM]. match goal with |- context [foldM ?f] => fold (foldM f) end.
    cbn [fst snd]. rewrite E, category_from_display.
    rewrite mr_update_absent by (apply Fr; left; reflexivity). rewrite Rd. cbn [bind].
    inversion ND as [|? ? NI ND']; subst.
    destruct (IH (acc ++ [(fst nc, c')])) as (res & E2 & F2).
    + intros x X. apply H. right; exact X.
    + exact ND'.
    + intros x X. rewrite map_app, in_app_iff. cbn. intros [I|[I|[]]].
      * exact (Fr x (or_intror X) I).
      * apply NI. rewrite I. apply in_map, X.
    + exists ((fst nc, c') :: res). split.
      * rewrite E2, <- app_assoc. reflexivity.
      * constructor; [split; [reflexivity|exact S]|exact F2].
Qed.

Lemma same_category_nonempty : forall a b, same_category a b -> cat_is_empty a = false -> cat_is_empty b = false.
Proof.
  intros a b (_ & perm & P & F) E. destruct (cat_is_empty b) eqn:B; [|reflexivity].
  apply cat_is_empty_iff in B. rewrite B in F. inversion F; subst.
  apply Permutation_sym, Permutation_nil in P. apply cat_is_empty_iff in P. congruence.
Qed.

Lemma NoDup_filter_map : forall A B (f : A -> B) g l, NoDup (map f l) -> NoDup (map f (filter g l)).
Proof.
  induction l as [|x l IH]; intro ND; [constructor|]. inversion ND; subst. cbn.
  destruct (g x); [|auto]. cbn. constructor; [|auto].
  intro I. apply H1. apply in_map_iff in I. destruct I as (y & E & I). apply filter_In in I.
  rewrite <- E. apply in_map, I.
Qed.

Lemma collection_roundtrip : forall m, collection_ok w m ->
  exists m', matchers_from_json w (Some (mr_to_v3_json m)) = Ok m' /\ same_collection m m'.
Proof.
  intros m (ND & F).
  unfold mr_to_v3_json. rewrite enc_fold, enc_fold_filter by exact F.
  set (L := filter has_rules m).
  assert (NDL : NoDup (map fst L)) by (apply NoDup_filter_map; exact ND).
  pose proof (fold_insert_perm _ _ (fun nc : category_name * category => cat_display (fst nc))
     (fun nc => match enc nc with Some v => v | None => JNull end) L []) as Q.
  rewrite app_nil_r in Q. specialize (Q (NoDup_map_transfer _ _ _ _ _ L NDL (fun x y _ _ E => cat_display_inj _ _ E)) (fun _ _ H => H)).
  apply Permutation_map_inv in Q. destruct Q as (L' & Em & Pm).
  cbn beta in Em. rewrite Em.
  destruct (load_entries L' []) as (res & E & F2).
  - intros nc I. apply (Permutation_in _ (Permutation_sym Pm)) in I. apply filter_In in I.
    rewrite Forall_forall in F. split; [apply F, I|apply I].
  - eapply Permutation_NoDup; [apply Permutation_map, Pm|exact NDL].
  - intros ? ? [].
  - cbn [app] in E. exists res. split.
    + unfold matchers_from_json.
      replace (starts_with _ _) with false; [exact E|].
      destruct L' as [|[n c] L']; [reflexivity|]. destruct n; reflexivity.
    + exists L'. split; [exact Pm|].
      assert (HL : forall nc, In nc L' -> has_rules nc = true).
      { intros nc I. apply (Permutation_in _ (Permutation_sym Pm)) in I. apply filter_In in I. apply I. }
      clear - F2 HL. induction F2 as [|x y l l' (E1 & E2) F2 IH]; [constructor|].
      cbn. assert (has_rules y = true) as ->.
      { specialize (HL x (or_introl eq_refl)). unfold has_rules in *. apply negb_true_iff in HL.
        rewrite (same_category_nonempty _ _ E2 HL). reflexivity. }
      constructor; [split; assumption|]. apply IH. intros nc I. apply HL. right; exact I.
Qed.
End Coll.
