(** C117: rules and generators given through the C interface as JSON. *)
From Coq Require Import Ascii String List Arith NArith ZArith Lia Bool.
From Verif Require Import Base PathExp Json Text MatchingRules SpecRules Matchers Headers ContentType SpecQuery Http QueryProofs Expr Generators RuleExpr Integration SpecIntegration
  FormJson SpecFormJson XmlJson SpecXmlJson Merge PactFile Handles PropHandles2 PropIntegration PropBody PropGenerators PropGenRequest PropPattern3 FfiBody SpecFfiBody PropFfiBody PropFfiBody2 PropFfiBody3.
From Verif Require Builder.
Import ListNotations.
Open Scope N_scope.

(** ** What is read holds every category and every path once *)
Definition keyed_once (m : matching_rules) : Prop := NoDup (map fst m) /\ Forall (fun nc => NoDup (path_texts (cat_rules (snd nc)))) m.
Notation once c := (NoDup (path_texts (cat_rules c))).
Lemma push_texts : forall k r l m t, In t (path_texts (hm_push k r l m)) -> t = path_expr k \/ In t (path_texts m).
Proof.
  intros k r l m t. unfold path_texts. induction m as [|[k' rl] m IH]; cbn [hm_push map fst In].
  - intros [<-|[]]. auto.
  - destruct (path_eqb k k'); cbn [map fst In]; intros [H|H]; auto. destruct (IH H); auto.
Qed.
Lemma push_once : forall k r l m, NoDup (path_texts m) -> NoDup (path_texts (hm_push k r l m)).
Proof.
  intros k r l m. induction m as [|[k' rl] m IH]; intro H; cbn [hm_push].
  - constructor; [intros []|constructor].
  - inversion H as [|? ? NI ND]; subst. destruct (path_eqb k k') eqn:E; [exact H|]. cbn [path_texts map fst]. constructor; [|apply IH, ND].
    intro J. apply push_texts in J as [J|J]; [apply path_eqb_false in E; congruence | exact (NI J)].
Qed.
Section With.
Variable w : world.
Variable rj : json -> outcome rule rule_error.
Lemma cat_rule_once : forall k l c j c', once c -> cat_rule_from_json rj k l c j = Ok c' -> once c'.
Proof. intros k l c j c' H F. unfold cat_rule_from_json, bind in F. destruct (rj j); try discriminate. injection F as <-. apply push_once, H. Qed.
Lemma add_list_once : forall c k v c', once c -> add_rule_list w rj c k v = Ok c' -> once c'.
Proof.
  intros c k v c' H F. unfold add_rule_list in F. destruct (json_get (S_ "matchers") v) as [[| | | |l|]|]; try (injection F as <-; exact H).
  revert F. apply (foldM_inv _ _ _ (fun c => once c)); [|exact H]. intros b x b' Pb E. eapply cat_rule_once; eassumption.
Qed.
Lemma add_v3_once : forall c v c', once c -> add_v3_rules_from_json w rj c v = Ok c' -> once c'.
Proof.
  intros c v c' H F. unfold add_v3_rules_from_json in F. destruct (_ && _); [eapply add_list_once; eassumption|].
  destruct v; try discriminate. destruct (obj_has _ _); [eapply add_list_once; eassumption|]. destruct (_ || _).
  - revert F. apply (foldM_inv _ _ _ (fun c => once c)); [|exact H]. intros b x b' Pb E. eapply add_list_once; eassumption.
  - revert F. apply (foldM_inv _ _ _ (fun c => once c)); [|exact H]. intros b x b' Pb E. unfold bind in E. destruct (path_new_w w (fst x)); try discriminate.
    eapply add_list_once; eassumption.
Qed.
End With.
Lemma update_names : forall n f m m', mr_update n f m = Ok m' -> forall k, In k (map fst m') -> k = n \/ In k (map fst m).
Proof.
  intros n f m. induction m as [|[n' c] m IH]; intros m' F k J; cbn [mr_update] in F.
  - apply bind_ok' in F as (c' & _ & F). injection F as <-. destruct J as [<-|[]]. auto.
  - destruct (cat_eqb n n'); apply bind_ok' in F as (c' & E & F); injection F as <-; cbn [map fst In] in *; destruct J as [J|J]; auto.
    destruct (IH _ E k J); auto.
Qed.
Lemma cat_same : forall a b, cat_eqb a b = true <-> a = b.
Proof. intros a b. split; [destruct a, b; try discriminate; reflexivity | intros ->; destruct b; reflexivity]. Qed.
Lemma update_once : forall n f, (forall c c', once c -> f c = Ok c' -> once c') -> forall m m', keyed_once m -> mr_update n f m = Ok m' -> keyed_once m'.
Proof.
  intros n f H. induction m as [|[n' c] m IH]; intros m' [ND A] F; cbn [mr_update] in F.
  - apply bind_ok' in F as (c' & E & F). injection F as <-. split; [constructor; [intros []|constructor]|]. constructor; [|constructor]. cbn [snd]. eapply H; [|exact E]. constructor.
  - inversion A as [|? ? A1 A2]; subst. inversion ND as [|? ? NI ND']; subst. destruct (cat_eqb n n') eqn:Q; apply bind_ok' in F as (c' & E & F); injection F as <-.
    + split; [exact ND|]. constructor; [|exact A2]. eapply H; [exact A1 | exact E].
    + destruct (IH c' (conj ND' A2) E) as [ND2 A3]. split; [|constructor; assumption]. cbn [map fst]. constructor; [|exact ND2].
      intro J. apply (update_names _ _ _ _ E) in J as [->|J]; [|exact (NI J)]. rewrite (proj2 (cat_same n n) eq_refl) in Q. discriminate.
Qed.
Lemma read_once : forall w v m, matchers_from_json w v = Ok m -> keyed_once m.
Proof.
  assert (Z : keyed_once []) by (split; constructor).
  intros w v m F. unfold matchers_from_json in F. destruct v as [[| | | | |o]|]; try (injection F as <-; exact Z). destruct (MatchingRules.starts_with _ _).
  - revert F. apply (foldM_inv _ _ _ keyed_once); [|exact Z]. intros b [key x] b' Pb E. unfold load_v2_entry in E.
    repeat match type of E with
    | (if ?b then _ else _) = _ => destruct b
    | bind ?o _ = _ => unfold bind in E at 1; let P := fresh "P" in destruct o eqn:P; try discriminate E
    | match field_names ?p with _ => _ end = _ => destruct (field_names p) as [|? [|? ?]]; try discriminate E
    end; try (unfold add_v2_rule in E; revert E; apply update_once; [|exact Pb]; intros c c' H E; eapply cat_rule_once; [exact H | exact E]).
  - revert F. apply (foldM_inv _ _ _ keyed_once); [|exact Z]. intros b [key x] b' Pb E. revert E. apply update_once; [|exact Pb].
    intros c0 c' H E. eapply add_v3_once; [exact H | exact E].
Qed.

(** ** Merging *)
Lemma merge_one_get : forall k rl m p, hm_get p (hm_merge_one k rl m) = if path_eqb p k then joined (hm_get p m) (Some rl) else hm_get p m.
Proof.
  intros k rl m p. induction m as [|[k' v] m IH]; cbn [hm_merge_one hm_get].
  - destruct (path_eqb p k); reflexivity.
  - destruct (path_eqb k k') eqn:E; cbn [hm_get].
    + apply path_eqb_expr in E. destruct (path_eqb p k) eqn:F.
      * apply path_eqb_expr in F. replace (path_eqb p k') with true by (symmetry; apply path_eqb_expr; congruence). reflexivity.
      * apply path_eqb_false in F. replace (path_eqb p k') with false by (symmetry; apply path_eqb_false; congruence). reflexivity.
    + rewrite IH. destruct (path_eqb p k) eqn:F; [|reflexivity]. apply path_eqb_expr in F. apply path_eqb_false in E.
      replace (path_eqb p k') with false by (symmetry; apply path_eqb_false; congruence). reflexivity.
Qed.
Lemma joined_none : forall o, joined o None = o.
Proof. destruct o; reflexivity. Qed.
Lemma get_absent : forall (l : list (docpath * rulelist)) p, ~ In (path_expr p) (path_texts l) -> hm_get p l = None.
Proof.
  induction l as [|[k v] l IH]; intros p NI; [reflexivity|]. cbn [hm_get]. destruct (path_eqb p k) eqn:E.
  - apply path_eqb_expr in E. exfalso. apply NI. left. cbn [fst]. congruence.
  - apply IH. intro J. apply NI. right. exact J.
Qed.
Lemma merge_get : forall l m p, NoDup (path_texts l) -> hm_get p (fold_left (fun m pr => hm_merge_one (fst pr) (snd pr) m) l m) = joined (hm_get p m) (hm_get p l).
Proof.
  induction l as [|[k rl] l IH]; intros m p ND; cbn [fold_left fst snd]; [rewrite joined_none; reflexivity|]. inversion ND as [|? ? NI ND']; subst.
  rewrite (IH _ _ ND'), merge_one_get. cbn [hm_get]. destruct (path_eqb p k) eqn:E; [|reflexivity].
  apply path_eqb_expr in E. rewrite (get_absent l p), joined_none; [reflexivity|]. rewrite E. exact NI.
Qed.
Lemma with_category_at : forall n f m n' p,
  rules_at n' (Builder.with_category n f m) p =
  if cat_eqb n' n then hm_get p (cat_rules (f (match find (fun nc => cat_eqb n (fst nc)) m with Some nc => snd nc | None => cat_empty n end))) else rules_at n' m p.
Proof.
  intros n f m n' p. induction m as [|[k c] m IH]; cbn [Builder.with_category rules_at find fst].
  - destruct (cat_eqb n' n); reflexivity.
  - destruct (cat_eqb n k) eqn:E; cbn [rules_at snd].
    + apply cat_same in E. subst k. destruct (cat_eqb n' n) eqn:F; reflexivity.
    + rewrite IH. destruct (cat_eqb n' n) eqn:F; [|reflexivity]. apply cat_same in F. subst n'. rewrite E. reflexivity.
Qed.
Lemma rules_at_find : forall n m p, rules_at n m p = match find (fun nc => cat_eqb n (fst nc)) m with Some nc => hm_get p (cat_rules (snd nc)) | None => None end.
Proof. intros n m p. induction m as [|[k c] m IH]; cbn [rules_at find fst]; [reflexivity|]. destruct (cat_eqb n k); [reflexivity | exact IH]. Qed.
Lemma merged_at : forall other m n p, keyed_once other -> rules_at n (mr_merge m other) p = joined (rules_at n m p) (rules_at n other p).
Proof.
  intros other. unfold mr_merge. induction other as [|[k c] other IH]; intros m n p [ND A]; cbn [fold_left fst snd rules_at]; [rewrite joined_none; reflexivity|].
  inversion ND as [|? ? NI ND']; subst. inversion A as [|? ? A1 A2]; subst. rewrite (IH _ _ _ (conj ND' A2)), with_category_at.
  destruct (cat_eqb n k) eqn:E; [|reflexivity]. apply cat_same in E. subst k.
  assert (rules_at n other p = None) as ->.
  { clear - NI. induction other as [|[k c] other IH]; [reflexivity|]. cbn [rules_at]. destruct (cat_eqb n k) eqn:E.
    - apply cat_same in E. subst k. exfalso. apply NI. left. reflexivity.
    - apply IH. intro J. apply NI. right. exact J. }
  rewrite joined_none, rules_at_find. unfold cat_add_rules. cbn [cat_rules snd] in *. rewrite merge_get by exact A1.
  destruct (find (fun nc => cat_eqb n (fst nc)) m) as [nc|]; reflexivity.
Qed.

(** ** Generators *)
Definition gens_once (g : generators) : Prop := NoDup (map fst g) /\ Forall (fun cm => NoDup (map (fun px => path_expr (fst px)) (snd cm))) g.
Lemma insert_texts : forall (m : gen_map) p x t, In t (map (fun px => path_expr (fst px)) (hm_insert p x m)) -> t = path_expr p \/ In t (map (fun px => path_expr (fst px)) m).
Proof.
  induction m as [|[k v] m IH]; intros p x t; cbn [hm_insert map fst In]; [intros [<-|[]]; auto|].
  destruct (path_eqb p k); cbn [map fst In]; intros [H|H]; auto. destruct (IH p x t H); auto.
Qed.
Lemma insert_once : forall (m : gen_map) p x, NoDup (map (fun px => path_expr (fst px)) m) -> NoDup (map (fun px => path_expr (fst px)) (hm_insert p x m)).
Proof.
  induction m as [|[k v] m IH]; intros p x H; cbn [hm_insert]; [constructor; [intros []|constructor]|]. inversion H as [|? ? NI ND]; subst.
  destruct (path_eqb p k) eqn:E; [exact H|]. cbn [map fst]. constructor; [|apply IH, ND]. intro J. apply insert_texts in J as [J|J]; [apply path_eqb_false in E; congruence | exact (NI J)].
Qed.
Lemma add_once : forall g c p x, gens_once g -> gens_once (add_generator_at c p x g).
Proof.
  intros g c p x [ND A]. split; [apply cats_update_nodup, ND|]. unfold add_generator_at. clear ND. induction g as [|[k m] g IH]; cbn [cats_update].
  - constructor; [|constructor]. apply insert_once. constructor.
  - inversion A as [|? ? A1 A2]; subst. destruct (gcat_eqb c k); constructor; auto. apply insert_once, A1.
Qed.
Lemma parsed_once : forall w g c m sub, gens_once g -> gens_once (parse_generator w c m sub g).
Proof.
  intros w g c m sub H. unfold parse_generator. destruct (obj_get (S_ "type") m) as [[| | |ty| |]|]; try exact H. destruct (gen_from_map w ty m); [|exact H].
  destruct sub; apply add_once, H.
Qed.
Lemma gens_read_once : forall w v g, generators_from_json w v = Ok g -> gens_once g.
Proof.
  assert (Z : gens_once []) by (split; constructor).
  intros w v g F. unfold generators_from_json in F. destruct (json_get (S_ "generators") v) as [[| | | | |m]|]; try (injection F as <-; exact Z).
  revert F. apply (foldM_inv _ _ _ gens_once); [|exact Z]. intros b [k y] b' Pb E. unfold load_cat in E. cbn [fst snd] in E.
  destruct y as [| | | | |o]; try (injection E as <-; exact Pb). destruct (gcat_parse w k) as [c|]; [|injection E as <-; exact Pb].
  destruct (single_key c); [injection E as <-; apply parsed_once, Pb|]. revert E. apply (foldM_inv _ _ _ gens_once); [|exact Pb]. intros b0 [k0 y0] b1 P0 E. unfold load_sub in E. cbn [fst snd] in E.
  destruct y0 as [| | | | |o0]; try (injection E as <-; exact P0). destruct (named_key c); [injection E as <-; apply parsed_once, P0|].
  apply bind_ok' in E as (p & _ & E). injection E as <-. apply parsed_once, P0.
Qed.
Lemma inserted_get : forall (l m : gen_map) q, NoDup (map (fun px => path_expr (fst px)) l) ->
  hm_get q (fold_left (fun m pg => hm_insert (fst pg) (snd pg) m) l m) = match hm_get q l with Some g => Some g | None => hm_get q m end.
Proof.
  induction l as [|[k v] l IH]; intros m q ND; [reflexivity|]. inversion ND as [|? ? NI ND']; subst. cbn [fold_left fst snd hm_get]. rewrite (IH _ _ ND'), hm_insert_get.
  destruct (path_eqb q k) eqn:E; [|reflexivity]. apply path_eqb_expr in E.
  assert (hm_get q l = None) as ->; [|reflexivity]. clear - NI E. induction l as [|[k' v'] l IH]; [reflexivity|]. cbn [hm_get].
  destruct (path_eqb q k') eqn:F; [apply path_eqb_expr in F; exfalso; apply NI; left; cbn [fst]; congruence|]. apply IH. intro J. apply NI. right. exact J.
Qed.
Lemma put_at : forall other g c p, gens_once other -> generator_at c (add_generators other g) p = match generator_at c other p with Some x => Some x | None => generator_at c g p end.
Proof.
  unfold add_generators. induction other as [|[k m] other IH]; intros g c p [ND A]; cbn [fold_left fst snd]; [reflexivity|].
  inversion ND as [|? ? NI ND']; subst. inversion A as [|? ? A1 A2]; subst. rewrite (IH _ _ _ (conj ND' A2)). unfold generator_at. cbn [cats_get]. rewrite cats_update_get.
  destruct (gcat_eqb c k) eqn:E; [|reflexivity]. apply gcat_eqb_eq in E. subst k.
  assert (cats_get c other = None) as ->.
  { clear - NI. induction other as [|[k m'] other IH]; [reflexivity|]. cbn [cats_get]. destruct (gcat_eqb c k) eqn:E.
    - apply gcat_eqb_eq in E. subst k. exfalso. apply NI. left. reflexivity.
    - apply IH. intro J. apply NI. right. exact J. }
  rewrite inserted_get by exact A1. destruct (hm_get p m); [reflexivity|]. destruct (cats_get c g); reflexivity.
Qed.

(** ** The calls *)
Section Calls.
Variable w : world.
Variable x : externals.
Lemma unwrap : forall name m, json_get (S_ name) (wrapped (S_ name) m) = Some (under name m).
Proof.
  intros name m. unfold wrapped, under, obj_has. rewrite (entry_get _ (S_ name) m). destruct (obj_get (S_ name) m) as [v|] eqn:G; cbn [json_get obj_get].
  - exact G.
  - rewrite str_eqb_refl. reflexivity.
Qed.
Lemma on_side_ruled : forall (R : ruled -> ruled -> Prop) f s i, (forall r, R r (f r)) -> ruled_side R s i (on_ruled s f i).
Proof. intros R f [|] [q p|m|q l] H; constructor; auto. induction l; constructor; auto. Qed.
(** Rules: the text is a JSON object, its rules (those under "matchingRules" if there is such a name) can be read, and every rule is
    put behind those of its path; otherwise nothing changes and the result is false. *)
Theorem C117_matching_rules : forall s text i i' ok, with_matching_rules w x s text i = (i', ok) ->
  (ok = true <-> exists t m rules, text = Some t /\ json_of_bytes x (utf8 t) = Some (JObj m) /\ matchers_from_json w (Some (under "matchingRules" m)) = Ok rules) /\
  (ok = false -> i' = i) /\
  (forall t m rules, text = Some t -> json_of_bytes x (utf8 t) = Some (JObj m) -> matchers_from_json w (Some (under "matchingRules" m)) = Ok rules ->
     ruled_side (rules_joined rules) s i i').
Proof.
  intros s text i i' ok H. unfold with_matching_rules in H.
  assert (NO : (i, false) = (i', ok) -> (forall t m rules, text = Some t -> json_of_bytes x (utf8 t) = Some (JObj m) -> matchers_from_json w (Some (under "matchingRules" m)) <> Ok rules) ->
    (ok = true <-> exists t m rules, text = Some t /\ json_of_bytes x (utf8 t) = Some (JObj m) /\ matchers_from_json w (Some (under "matchingRules" m)) = Ok rules) /\
    (ok = false -> i' = i) /\
    (forall t m rules, text = Some t -> json_of_bytes x (utf8 t) = Some (JObj m) -> matchers_from_json w (Some (under "matchingRules" m)) = Ok rules ->
       ruled_side (rules_joined rules) s i i')).
  { intros E NR. injection E as <- <-. split; [split; [discriminate | intros (t & m & rules & A & B & C); exfalso; exact (NR t m rules A B C)]|]. split; [reflexivity|].
    intros t m rules A B C. exfalso. exact (NR t m rules A B C). }
  destruct text as [t|]; [|apply NO; [exact H | discriminate]].
  destruct (json_of_bytes x (utf8 t)) as [v|] eqn:V.
  2:{ apply NO; [exact H|]. intros t0 m0 rules0 A B _. injection A as <-. congruence. }
  destruct v as [| | | | |m]; try (apply NO; [exact H|]; intros t0 m0 rules0 A B _; injection A as <-; congruence).
  rewrite (unwrap "matchingRules" m) in H. destruct (matchers_from_json w (Some (under "matchingRules" m))) as [rules|e|] eqn:R.
  2,3: apply NO; [exact H|]; intros t0 m0 rules0 A B C; injection A as <-; rewrite V in B; injection B as <-; congruence.
  injection H as <- <-. split; [split; [intros _; exists t, m, rules; auto | reflexivity]|]. split; [discriminate|].
  intros t0 m0 rules0 A B C. injection A as <-. rewrite V in B. injection B as <-. rewrite R in C. injection C as <-.
  apply on_side_ruled. intro r. split; [reflexivity|]. intros n p. apply merged_at. eapply read_once, R.
Qed.
(** Generators: the same, but a new generator replaces the one there was. *)
Theorem C117_generators : forall s text i i' ok, with_generators w x s text i = (i', ok) ->
  (ok = true <-> exists t m gens, text = Some t /\ json_of_bytes x (utf8 t) = Some (JObj m) /\ generators_from_json w (JObj [(S_ "generators", under "generators" m)]) = Ok gens) /\
  (ok = false -> i' = i) /\
  (forall t m gens, text = Some t -> json_of_bytes x (utf8 t) = Some (JObj m) -> generators_from_json w (JObj [(S_ "generators", under "generators" m)]) = Ok gens ->
     ruled_side (generators_put gens) s i i').
Proof.
  intros s text i i' ok H. unfold with_generators in H.
  assert (NO : (i, false) = (i', ok) -> (forall t m gens, text = Some t -> json_of_bytes x (utf8 t) = Some (JObj m) -> generators_from_json w (JObj [(S_ "generators", under "generators" m)]) <> Ok gens) ->
    (ok = true <-> exists t m gens, text = Some t /\ json_of_bytes x (utf8 t) = Some (JObj m) /\ generators_from_json w (JObj [(S_ "generators", under "generators" m)]) = Ok gens) /\
    (ok = false -> i' = i) /\
    (forall t m gens, text = Some t -> json_of_bytes x (utf8 t) = Some (JObj m) -> generators_from_json w (JObj [(S_ "generators", under "generators" m)]) = Ok gens ->
       ruled_side (generators_put gens) s i i')).
  { intros E NR. injection E as <- <-. split; [split; [discriminate | intros (t & m & gens & A & B & C); exfalso; exact (NR t m gens A B C)]|]. split; [reflexivity|].
    intros t m gens A B C. exfalso. exact (NR t m gens A B C). }
  destruct text as [t|]; [|apply NO; [exact H | discriminate]].
  destruct (json_of_bytes x (utf8 t)) as [v|] eqn:V.
  2:{ apply NO; [exact H|]. intros t0 m0 rules0 A B _. injection A as <-. congruence. }
  destruct v as [| | | | |m]; try (apply NO; [exact H|]; intros t0 m0 rules0 A B _; injection A as <-; congruence).
  assert (SAME : generators_from_json w (wrapped (S_ "generators") m) = generators_from_json w (JObj [(S_ "generators", under "generators" m)])).
  { unfold generators_from_json. rewrite (unwrap "generators" m). cbn [json_get obj_get]. rewrite str_eqb_refl. reflexivity. }
  rewrite SAME in H. destruct (generators_from_json w (JObj [(S_ "generators", under "generators" m)])) as [gens|e|] eqn:R.
  2,3: apply NO; [exact H|]; intros t0 m0 rules0 A B C; injection A as <-; rewrite V in B; injection B as <-; congruence.
  injection H as <- <-. split; [split; [intros _; exists t, m, gens; auto | reflexivity]|]. split; [discriminate|].
  intros t0 m0 rules0 A B C. injection A as <-. rewrite V in B. injection B as <-. rewrite R in C. injection C as <-.
  apply on_side_ruled. intro r. split; [reflexivity|]. intros c p. apply put_at. eapply gens_read_once, R.
Qed.
End Calls.

(** ** Examples *)
Definition rules_doc : list (str * json) :=
  [(S_ "body", JObj [(S_ "$.id", JObj [(S_ "combine", JStr (S_ "OR")); (S_ "matchers", JArr [JObj [(S_ "match", JStr (S_ "integer"))]])])])].
Definition gens_doc : list (str * json) := [(S_ "body", JObj [(S_ "$.id", JObj [(S_ "type", JStr (S_ "Uuid"))])])].
Definition doc_ext : externals := mkExt (fun _ => None) (fun _ => xct "text" "plain") (fun _ => None)
  (fun b => if str_eqb b (S_ "rules") then Some (JObj rules_doc) else if str_eqb b (S_ "wrapped") then Some (JObj [(S_ "matchingRules", JObj rules_doc)])
            else if str_eqb b (S_ "gens") then Some (JObj gens_doc) else if str_eqb b (S_ "list") then Some (JArr []) else None)
  (fun _ => None) (fun _ _ => true) (fun _ _ _ => []) (fun _ _ _ _ _ => []).
Definition id_path : docpath := mkPath [TRoot; TField (S_ "id")] (S_ "$.id").
Definition typed : ruled := ([(CBody, mkCat CBody [(id_path, mkRules [RType] And false)])], [(GcBody, [(id_path, GRandomBoolean)])]).
(** The name around the rules may be left out. Found: how rules are combined is not changed by a later call, even if it says so. *)
Example C117_example_rules : let call t i := with_matching_rules digits_world doc_ext Request (Some (S_ t)) i in
  let i0 := RIHttp typed ([], []) in
  snd (call "rules"%string i0) = true /\ call "wrapped"%string i0 = call "rules"%string i0 /\ call "list"%string i0 = (i0, false) /\
  fst (call "rules"%string i0) = RIHttp ([(CBody, mkCat CBody [(id_path, mkRules [RType; RInteger] And false)])], snd typed) ([], []) /\
  fst (call "rules"%string (RIHttp ([], []) ([], []))) = RIHttp ([(CBody, mkCat CBody [(id_path, mkRules [RInteger] Or false)])], []) ([], []).
Proof. cbv zeta. repeat (apply conj); vm_compute; reflexivity. Qed.
Example C117_example_generators : with_generators digits_world doc_ext Response (Some (S_ "gens")) (RISync ([], []) [typed; ([], [])]) =
  (RISync ([], []) [(fst typed, [(GcBody, [(id_path, GUuid None)])]); ([], [(GcBody, [(id_path, GUuid None)])])], true).
Proof. vm_compute. reflexivity. Qed.
