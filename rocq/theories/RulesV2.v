(** Writing and reading a whole collection of matching rules in V2 form. *)
From Coq Require Import Ascii String List Arith NArith ZArith Lia Bool Permutation Sorted.
From Verif Require Import Base PathExp SpecPath PathExpProofs PropPath Json MatchingRules SpecRules SpecRulesV2 RulesProofs RulesProofs2 RulesProofs3.
Import ListNotations.
Open Scope N_scope.
Local Opaque show_N two64.

Definition v2e : Type := category_name * (docpath * rulelist).
Definition v2_key (e : v2e) : str :=
  let n := fst e in let p := fst (snd e) in
  match n with
  | CPath => S_ "$.path"
  | CBody => replace_char 36 (S_ "$.body") (path_expr p)
  | CHeader | CQuery => path_expr (push_path (push_field path_root (cat_v2_form n)) p)
  | n => S_ "$." ++ cat_v2_form n ++ S_ "." ++ path_expr p
  end.
Definition all_entries (m : matching_rules) : list v2e := flat_map (fun nc => map (pair (fst nc)) (cat_rules (snd nc))) m.
(** The path a rule is read back at. *)
Definition read_path (e : v2e) : docpath :=
  match fst e with
  | CBody => fst (snd e)
  | CHeader | CQuery => match path_tokens (fst (snd e)) with _ :: TField f :: _ => mkPath [TRoot; TField f] f | _ => path_empty end
  | _ => path_empty
  end.

Section V2.
Variable w : world.
Definition entry_ok (e : v2e) : Prop := v2_entry w (fst e) (snd e).

Lemma written_flat : forall m, Forall (fun nc => cat_name (snd nc) = fst nc) m ->
  mr_to_v2_json m = JObj (fold_left (fun acc e => obj_insert (v2_key e) (rl_to_v2_json (snd (snd e))) acc) (all_entries m) []).
Proof.
  intros m F. unfold mr_to_v2_json. f_equal. generalize (@nil (str * json)) as acc. induction F as [|nc m E F IH]; intro acc; [reflexivity|].
  cbn [fold_left all_entries flat_map]. rewrite fold_left_app. unfold all_entries in IH. rewrite <- IH. f_equal.
  unfold cat_to_v2_json. rewrite E. clear IH. generalize (cat_rules (snd nc)) as prs. intro prs. revert acc.
  induction prs as [|pr prs IH]; intro acc; [reflexivity|]. cbn [map fold_left]. rewrite IH. destruct nc as [n c]; destruct n; reflexivity.
Qed.

Lemma named_key : forall n f p, path_tokens p = [TRoot; TField f] -> plain_name f -> plain_name (cat_v2_form n) ->
  path_expr (push_path (push_field path_root (cat_v2_form n)) p) = build_expr [TRoot; TField (cat_v2_form n); TField f] /\
  path_new_w w (path_expr (push_path (push_field path_root (cat_v2_form n)) p)) =
    Ok (mkPath [TRoot; TField (cat_v2_form n); TField f] (build_expr [TRoot; TField (cat_v2_form n); TField f])).
Proof.
  intros n f p T P Q. unfold push_path. rewrite T. cbn [fold_left]. unfold push_field, push. cbn [path_expr path_tokens path_root app].
  assert (E : (S_ "$" ++ token_expr (TField (cat_v2_form n))) ++ token_expr (TField f) = build_expr [TRoot; TField (cat_v2_form n); TField f]).
  { cbn [build_expr token_expr]. rewrite app_nil_r, <- app_assoc. reflexivity. }
  rewrite E. split; [reflexivity|]. unfold path_new_w, path_new.
  pose proof (proj2 (C01_path_print_parse (uni_alpha w) (uni_numeric w) [TField (cat_v2_form n); TField f])) as R.
  cbn [from_tokens path_expr] in R. rewrite R by (constructor; [exact Q|constructor; [exact P|constructor]]). reflexivity.
Qed.

Lemma step_place : forall e m v, entry_ok e ->
  load_v2_entry w m (v2_key e, v) = add_v2_rule w m (fst e) (read_path e) v.
Proof.
  intros [n [p rl]] m v [_ H]. unfold v2_key, read_path. cbn [fst snd] in *. destruct n; cbn [v2_place] in H; try contradiction.
  - reflexivity.
  - destruct H as (f & T & Pf & Rf). assert (Q : plain_name (cat_v2_form CHeader)) by (repeat split; cbn; intuition discriminate).
    destruct (named_key CHeader f p T Pf Q) as [E R]. rewrite T. unfold load_v2_entry.
    assert (S1 : starts_with (S_ "$.body") (path_expr (push_path (push_field path_root (cat_v2_form CHeader)) p)) = false) by (rewrite E; reflexivity).
    assert (S2 : starts_with (S_ "$.headers") (path_expr (push_path (push_field path_root (cat_v2_form CHeader)) p)) = true) by (rewrite E; reflexivity).
    rewrite S1, S2, R. cbn [bind]. change (field_names _) with [S_ "headers"; f]. cbv iota. unfold path_new_w at 1. rewrite Rf. reflexivity.
  - destruct H as (f & T & Pf & Rf). assert (Q : plain_name (cat_v2_form CQuery)) by (repeat split; cbn; intuition discriminate).
    destruct (named_key CQuery f p T Pf Q) as [E R]. rewrite T. unfold load_v2_entry.
    assert (S1 : starts_with (S_ "$.body") (path_expr (push_path (push_field path_root (cat_v2_form CQuery)) p)) = false) by (rewrite E; reflexivity).
    assert (S2 : starts_with (S_ "$.headers") (path_expr (push_path (push_field path_root (cat_v2_form CQuery)) p)) = false) by (rewrite E; reflexivity).
    rewrite S1, S2, R. cbn [bind]. change (field_names _) with [S_ "query"; f]. cbv iota. unfold path_new_w at 1. rewrite Rf. reflexivity.
  - destruct H as (PN & rest & E & ND).
    assert (K : replace_char 36 (S_ "$.body") (path_expr p) = S_ "$.body" ++ rest).
    { rewrite E. change (S_ "$" ++ rest) with (36 :: rest). cbn [replace_char]. rewrite N.eqb_refl. rewrite replace_absent by exact ND. reflexivity. }
    rewrite K. unfold load_v2_entry. change (starts_with (S_ "$.body") (S_ "$.body" ++ rest)) with true. cbn iota.
    destruct (str_eqb_spec (S_ "$.body" ++ rest) (S_ "$.body")) as [Q|Q].
    + assert (rest = []) as -> by (destruct rest; [reflexivity|]; apply (f_equal (@length _)) in Q; cbn in Q; lia).
      replace path_root with p; [reflexivity|]. rewrite E in PN. cbn in PN. injection PN as <-. reflexivity.
    + change (skipn 6 (S_ "$.body" ++ rest)) with rest. unfold path_new_w. rewrite <- E, PN. reflexivity.
Qed.

Definition of_cat (n : category_name) (l : list v2e) : list (docpath * rulelist) := map snd (filter (fun e => cat_eqb (fst e) n) l).
Definition read_as (n : category_name) (pr pr' : docpath * rulelist) : Prop :=
  fst pr' = read_path (n, pr) /\ exists r rest r', rl_rules (snd pr) = r :: rest /\ rl_rules (snd pr') = [r'] /\ same_rule r r'.
Definition good (acc : matching_rules) (done : list v2e) : Prop :=
  NoDup (map fst acc) /\ Forall (fun nc => cat_name (snd nc) = fst nc) acc /\ forall n, Forall2 (read_as n) (of_cat n done) (rules_in n acc).

Lemma cat_eqb_true : forall a b, cat_eqb a b = true <-> a = b.
Proof. intros [] []; cbn; split; congruence. Qed.
Lemma rules_in_cons : forall n nc m, rules_in n (nc :: m) = (if cat_eqb (fst nc) n then cat_rules (snd nc) else []) ++ rules_in n m.
Proof. reflexivity. Qed.
Lemma rules_in_absent : forall n m, ~ In n (map fst m) -> rules_in n m = [].
Proof.
  intros n m H. induction m as [|nc m IH]; [reflexivity|]. rewrite rules_in_cons. destruct (cat_eqb (fst nc) n) eqn:E.
  - exfalso. apply H. left. apply cat_eqb_true, E.
  - apply IH. intro I1. apply H. right. exact I1.
Qed.
Lemma update_good : forall n p r' acc, NoDup (map fst acc) -> Forall (fun nc => cat_name (snd nc) = fst nc) acc ->
  ~ In (path_expr p) (path_texts (rules_in n acc)) ->
  exists acc', mr_update n (fun c => Ok (cat_add_rule c p r' And)) acc = Ok acc' /\
    NoDup (map fst acc') /\ Forall (fun nc => cat_name (snd nc) = fst nc) acc' /\
    (forall k, In k (map fst acc') -> k = n \/ In k (map fst acc)) /\
    forall k, rules_in k acc' = rules_in k acc ++ (if cat_eqb n k then [(p, mkRules [r'] And false)] else []).
Proof.
  intros n p r' acc. induction acc as [|[n' c] acc IH]; intros ND F A.
  - exists [(n, mkCat n [(p, mkRules [r'] And false)])]. split; [reflexivity|]. split; [repeat constructor; intros []|]. split; [repeat constructor|].
    split; [intros k [<-|[]]; left; reflexivity|]. intro k. rewrite rules_in_cons. cbn [fst snd cat_rules]. rewrite app_nil_r. reflexivity.
  - inversion ND as [|? ? N1 N2]; subst. pose proof (Forall_inv F) as C. pose proof (Forall_inv_tail F) as F'. cbn [fst snd] in *. cbn [mr_update]. rewrite rules_in_cons in A. cbn [fst snd] in A.
    destruct (cat_eqb n n') eqn:E.
    + apply cat_eqb_true in E. destruct E. rewrite (proj2 (cat_eqb_true n n) eq_refl) in A. rewrite rules_in_absent in A by exact N1. rewrite app_nil_r in A.
      cbn [bind]. eexists. split; [reflexivity|]. unfold cat_add_rule. rewrite hm_push_absent by exact A. split; [exact ND|]. split; [constructor; [exact C|exact F']|].
      split; [intros k Ik; right; exact Ik|]. intro k. rewrite !rules_in_cons. cbn [fst snd cat_rules]. destruct (cat_eqb n k) eqn:Ek.
      * apply cat_eqb_true in Ek. subst k. rewrite rules_in_absent by exact N1. rewrite !app_nil_r. reflexivity.
      * rewrite app_nil_r. reflexivity.
    + assert (E' : cat_eqb n' n = false) by (destruct (cat_eqb n' n) eqn:X; [apply cat_eqb_true in X; subst; rewrite (proj2 (cat_eqb_true _ _) eq_refl) in E; discriminate|reflexivity]).
      rewrite E' in A. cbn [app] in A. destruct (IH N2 F' A) as (acc' & -> & ND' & Fo & Sub & R). cbn [bind]. eexists. split; [reflexivity|].
      split; [cbn [map fst]; constructor; [|exact ND']; intro I1; apply Sub in I1; destruct I1 as [->|I1]; [rewrite (proj2 (cat_eqb_true n n) eq_refl) in E; discriminate|contradiction]|].
      split; [constructor; assumption|]. split; [intros k [<-|Ik]; [right; left; reflexivity|apply Sub in Ik; cbn; tauto]|].
      intro k. rewrite !rules_in_cons, R, app_assoc. reflexivity.
Qed.

Lemma forall2_texts : forall n a b, Forall2 (read_as n) a b -> path_texts b = map (fun pr => path_expr (read_path (n, pr))) a.
Proof. intros n a b F. induction F as [|x y a b [E _] _ IH]; [reflexivity|]. cbn [path_texts map]. unfold path_texts in IH. rewrite E, IH. reflexivity. Qed.
Definition place_text (e : v2e) : category_name * str := (fst e, path_expr (read_path e)).
Lemma of_cat_in : forall n pr l, In pr (of_cat n l) -> In (n, pr) l.
Proof.
  intros n pr l H. unfold of_cat in H. apply in_map_iff in H. destruct H as ([n' pr'] & <- & H). apply filter_In in H. destruct H as [H E].
  apply cat_eqb_true in E. cbn in E. subst n'. exact H.
Qed.

Lemma read_fold : forall es done acc, Forall entry_ok es -> NoDup (map place_text (done ++ es)) -> good acc done ->
  exists acc', foldM (load_v2_entry w) (map (fun e => (v2_key e, rl_to_v2_json (snd (snd e)))) es) acc = Ok acc' /\ good acc' (done ++ es).
Proof.
  induction es as [|e es IH]; intros done acc F ND (G1 & G2 & G3).
  - rewrite app_nil_r. exists acc. split; [reflexivity|]. repeat split; assumption.
  - inversion F as [|? ? H F']; subst. cbn [map foldM]. match goal with |- context [foldM ?f] => fold (foldM f) end.
    rewrite step_place by exact H. destruct e as [n [p rl]]. destruct H as [(r & rest & R & W) H]. cbn [fst snd] in *.
    unfold rl_to_v2_json. rewrite R. destruct (rule_reads w r (json_depth (rule_to_json r)) W (le_n _)) as (r' & Er & Sr).
    unfold add_v2_rule. rewrite (mr_update_ext n _ (fun c => Ok (cat_add_rule c (read_path (n, (p, rl))) r' And))) by (intro c; unfold cat_rule_from_json, rj_for; rewrite Er; reflexivity).
    destruct (update_good n (read_path (n, (p, rl))) r' acc G1 G2) as (acc' & E & G1' & G2' & _ & G3').
    { rewrite (forall2_texts n _ _ (G3 n)). intro I1. apply in_map_iff in I1. destruct I1 as (pr & Ex & I1). apply of_cat_in in I1.
      rewrite map_app in ND. apply NoDup_remove_2 in ND. apply ND. apply in_app_iff. left. apply in_map_iff. exists (n, pr). split; [|exact I1]. unfold place_text. cbn [fst]. rewrite Ex. reflexivity. }
    rewrite E. cbn [bind]. destruct (IH (done ++ [(n, (p, rl))]) acc' F') as (acc2 & E2 & G).
    + rewrite <- app_assoc. exact ND.
    + split; [exact G1'|]. split; [exact G2'|]. intro k. rewrite G3'. unfold of_cat. rewrite filter_app, map_app. cbn [filter fst]. apply Forall2_app; [apply G3|].
      destruct (cat_eqb n k) eqn:Ek; [|constructor]. apply cat_eqb_true in Ek. subst k. constructor; [|constructor]. split; [reflexivity|]. cbn [snd rl_rules]. eauto 7.
    + exists acc2. rewrite <- app_assoc in G. split; [exact E2|exact G].
Qed.

Lemma key_starts : forall e, entry_ok e -> starts_with (S_ "$") (v2_key e) = true.
Proof.
  intros [n [p rl]] [_ H]. cbn [fst snd] in *. unfold v2_key. cbn [fst snd]. destruct n; cbn [v2_place] in H; try contradiction.
  - reflexivity.
  - destruct H as (f & T & _). unfold push_path. rewrite T. reflexivity.
  - destruct H as (f & T & _). unfold push_path. rewrite T. reflexivity.
  - destruct H as (_ & rest & E & _). rewrite E. reflexivity.
Qed.
Lemma read_tokens : forall e, entry_ok e -> path_tokens (read_path e) = path_tokens (fst (snd e)) /\
  path_new (uni_alpha w) (uni_numeric w) (path_expr (read_path e)) = Ok (read_path e).
Proof.
  intros [n [p rl]] [_ H]. cbn [fst snd] in *. unfold read_path. cbn [fst snd]. destruct n; cbn [v2_place] in H; try contradiction.
  - subst p. split; reflexivity.
  - destruct H as (f & T & _ & R). rewrite T. split; [reflexivity|exact R].
  - destruct H as (f & T & _ & R). rewrite T. split; [reflexivity|exact R].
  - split; [reflexivity|apply H].
Qed.
Lemma key_place : forall a b, entry_ok a -> entry_ok b -> v2_key a = v2_key b -> place_text a = place_text b.
Proof.
  intros a b Ha Hb E.
  assert (L : forall m v, add_v2_rule w m (fst a) (read_path a) v = add_v2_rule w m (fst b) (read_path b) v).
  { intros. rewrite <- !step_place by assumption. rewrite E. reflexivity. }
  specialize (L [] (rule_to_json RType)). unfold add_v2_rule in L. cbn [mr_update] in L. unfold cat_rule_from_json, rj_for in L.
  destruct (rule_reads w RType (json_depth (rule_to_json RType)) (ra_leaf _ RType I I) (le_n _)) as (r' & Er & _). rewrite Er in L. cbn [bind] in L.
  unfold cat_add_rule, cat_empty in L. cbn [hm_push cat_rules cat_name] in L. injection L as L1 L2. unfold place_text. congruence.
Qed.

Lemma all_of_cat : forall n m, of_cat n (all_entries m) = rules_in n m.
Proof.
  intros n m. induction m as [|[k c] m IH]; [reflexivity|]. unfold of_cat, all_entries in *. cbn [flat_map fst snd]. rewrite filter_app, map_app, IH.
  rewrite rules_in_cons. f_equal. cbn [fst snd]. clear IH. induction (cat_rules c) as [|pr l IH]; cbn [map filter fst]; [destruct (cat_eqb k n); reflexivity|].
  destruct (cat_eqb k n); cbn [map snd]; [rewrite IH; reflexivity|exact IH].
Qed.
Lemma all_in : forall n pr m, In (n, pr) (all_entries m) -> exists c, In (n, c) m /\ In pr (cat_rules c).
Proof.
  intros n pr m H. unfold all_entries in H. apply in_flat_map in H. destruct H as ([k c] & H1 & H2). cbn [fst snd] in H2.
  apply in_map_iff in H2. destruct H2 as (q & E & H2). injection E as -> ->. eauto.
Qed.

Lemma nodup_app : forall A (a b : list A), NoDup a -> NoDup b -> (forall t, In t a -> In t b -> False) -> NoDup (a ++ b).
Proof.
  intros A a b Ha Hb D. induction Ha as [|t a M Ha IH]; [exact Hb|]. cbn [app]. constructor.
  - rewrite in_app_iff. intros [I1|I1]; [contradiction|]. apply (D t); [left; reflexivity|exact I1].
  - apply IH. intros t' I1. apply D. right. exact I1.
Qed.
Theorem collection_roundtrip : forall m, v2_collection w m ->
  exists m', matchers_from_json w (Some (mr_to_v2_json m)) = Ok m' /\ same_first_rules m m'.
Proof.
  intros m [ND F].
  assert (OK : Forall entry_ok (all_entries m)).
  { apply Forall_forall. intros [n pr] H. apply all_in in H. destruct H as (c & I1 & I2). rewrite Forall_forall in F. destruct (F _ I1) as (_ & _ & H).
    rewrite Forall_forall in H. exact (H _ I2). }
  assert (Names : Forall (fun nc => cat_name (snd nc) = fst nc) m) by (eapply Forall_impl; [|exact F]; intros ? H; apply H).
  assert (P1 : NoDup (map place_text (all_entries m))).
  { clear Names. induction m as [|[n c] m IH]; [constructor|]. inversion ND as [|? ? N1 N2]; subst. inversion F as [|? ? (Nc & Nt & Fc) F']; subst. cbn [fst snd] in *.
    cbn [all_entries flat_map fst snd] in OK |- *. apply Forall_app in OK. destruct OK as [OK1 OK2]. rewrite map_app. apply nodup_app.
    - rewrite map_map. clear -Nt OK1. induction (cat_rules c) as [|pr l IHl]; [constructor|]. cbn [map] in *. inversion Nt as [|? ? M1 M2]; subst. inversion OK1; subst. constructor; [|apply IHl; assumption].
      intro I1. apply in_map_iff in I1. destruct I1 as (q & E & I1). apply M1. apply in_map_iff. exists q. split; [|exact I1].
      assert (Oq : entry_ok (n, q)) by (rewrite Forall_forall in H2; apply H2; apply in_map; exact I1). unfold place_text in E. injection E as E.
      destruct (read_tokens _ H1) as [T1 R1]. destruct (read_tokens _ Oq) as [T2 R2]. cbn [snd] in T1, T2. rewrite E in R2. rewrite <- T1, <- T2. congruence.
    - apply IH; assumption.
    - intros t I1 I2. apply in_map_iff in I1. destruct I1 as ([k pr] & <- & I1). apply in_map_iff in I1. destruct I1 as (q & E & _). injection E as <- <-.
      apply in_map_iff in I2. destruct I2 as ([k' pr'] & E & I2). unfold place_text in E. cbn [fst] in E. injection E as E _. subst k'. apply all_in in I2. destruct I2 as (c' & I2 & _).
      apply N1. apply (in_map fst) in I2. exact I2. }
  assert (K : NoDup (map v2_key (all_entries m))).
  { clear -P1 OK. induction (all_entries m) as [|e l IH]; [constructor|]. cbn [map] in *. inversion P1 as [|? ? M1 M2]; subst. inversion OK; subst. constructor; [|apply IH; assumption].
    intro I1. apply in_map_iff in I1. destruct I1 as (q & E & I1). apply M1. apply in_map_iff. exists q. split; [|exact I1]. rewrite Forall_forall in H2. apply key_place; [apply H2, I1|assumption|exact E]. }
  rewrite written_flat by exact Names.
  pose proof (fold_insert_perm _ _ v2_key (fun e : v2e => rl_to_v2_json (snd (snd e))) (all_entries m) [] K (fun _ _ H => H)) as Q.
  rewrite app_nil_r in Q. apply Permutation_map_inv in Q. destruct Q as (es & Em & Pm).
  assert (OK' : Forall entry_ok es) by (eapply Permutation_Forall; eassumption).
  destruct (read_fold es [] []) as (m' & E & G1 & G2 & G3); [exact OK'|cbn [app]; eapply NoDup_map_perm; eassumption|repeat split; try constructor|].
  exists m'. split.
  - rewrite Em. unfold matchers_from_json. destruct es as [|e es]; [cbn in E; injection E as <-; reflexivity|].
    cbn [map]. inversion OK'; subst. rewrite key_starts by assumption. exact E.
  - split; [exact G1|]. split; [exact G2|]. intro n. specialize (G3 n). exists (of_cat n es). split.
    + rewrite <- all_of_cat. unfold of_cat. apply Permutation_map. clear -Pm. induction Pm; cbn [filter]; [constructor|destruct (cat_eqb (fst x) n); [constructor|]; assumption| |eapply perm_trans; eassumption].
      destruct (cat_eqb (fst x) n), (cat_eqb (fst y) n); try constructor; apply Permutation_refl.
    + cbn [app] in G3. assert (OKn : Forall (fun pr => entry_ok (n, pr)) (of_cat n es)).
      { apply Forall_forall. intros pr I1. apply of_cat_in in I1. rewrite Forall_forall in OK'. apply OK', I1. }
      clear -G3 OKn. induction G3 as [|x y a b [H1 H2] _ IH]; [constructor|]. inversion OKn; subst. constructor; [|apply IH; assumption].
      split; [|exact H2]. rewrite H1. symmetry. apply read_tokens; assumption.
Qed.
End V2.
