(** C75: the JSON that language integrations pass for bodies. *)
From Coq Require Import String List Arith NArith ZArith Lia Bool.
From Verif Require Import Base PathExp Json MatchingRules Expr Generators RuleExpr Integration SpecIntegration.
From Verif Require Import PathExpProofs2 PropPath SpecPath CompareProofs RulesProofs RulesProofs3 Headers HeaderProofs2 PropGenRequest RuleExprProofs.
Import ListNotations.
Open Scope N_scope.
Local Opaque show_N.

(** ** Maps from paths *)
Lemma path_eqb_expr : forall p q, path_eqb p q = true <-> path_expr p = path_expr q.
Proof. intros. unfold path_eqb. apply str_eqb_eq. Qed.
Lemma path_eqb_false : forall p q, path_eqb p q = false <-> path_expr p <> path_expr q.
Proof. intros. rewrite <- path_eqb_expr. destruct (path_eqb p q); split; congruence. Qed.
Lemma hm_get_same {A} : forall p q (m : list (docpath * A)), path_expr p = path_expr q -> hm_get p m = hm_get q m.
Proof.
  intros p q m E. induction m as [|[k v] m IH]; [reflexivity|]. cbn [hm_get]. rewrite IH.
  unfold path_eqb. rewrite E. reflexivity.
Qed.

Lemma xhm_push_get : forall k r l m p,
  hm_get p (xhm_push k r l m) =
  if path_eqb p k then
    Some (match hm_get k m with
          | Some rl => mkRules (rl_rules rl ++ [r]) (rl_logic rl) (rl_cascaded rl)
          | None => mkRules [r] l false
          end)
  else hm_get p m.
Proof.
  intros k r l m p. induction m as [|[k' rl] m IH]; cbn [xhm_push hm_get].
  - destruct (path_eqb p k); reflexivity.
  - destruct (path_eqb k k') eqn:E; cbn [hm_get].
    + apply path_eqb_expr in E. destruct (path_eqb p k) eqn:F.
      * apply path_eqb_expr in F. assert (G : path_eqb p k' = true) by (apply path_eqb_expr; congruence). rewrite G. reflexivity.
      * apply path_eqb_false in F. assert (G : path_eqb p k' = false) by (apply path_eqb_false; congruence). rewrite G. reflexivity.
    + rewrite IH. destruct (path_eqb p k) eqn:F; [|reflexivity].
      apply path_eqb_expr in F. apply path_eqb_false in E.
      assert (G : path_eqb p k' = false) by (apply path_eqb_false; congruence). rewrite G. reflexivity.
Qed.
Lemma xhm_push_keys : forall k r l m x, In x (map (fun e => path_expr (fst e)) (xhm_push k r l m)) ->
  x = path_expr k \/ In x (map (fun e => path_expr (fst e)) m).
Proof.
  intros k r l m x. induction m as [|[k' rl] m IH]; cbn [xhm_push map fst In].
  - intros [<- | []]. auto.
  - destruct (path_eqb k k'); cbn [map fst In]; intros [H | H]; auto. destruct (IH H); auto.
Qed.
Lemma xhm_push_distinct : forall k r l m, distinct m -> distinct (xhm_push k r l m).
Proof.
  intros k r l m. unfold distinct. induction m as [|[k' rl] m IH]; cbn [xhm_push map fst]; intro D.
  - constructor; [intros []|constructor].
  - inversion D as [|? ? N D']; subst. destruct (path_eqb k k') eqn:E; cbn [map fst].
    + constructor; assumption.
    + constructor; [|apply IH, D']. intro H. apply xhm_push_keys in H as [H | H]; [|exact (N H)].
      apply path_eqb_false in E. congruence.
Qed.
Lemma ghm_insert_get {A} : forall k (v : A) m p,
  hm_get p (Generators.hm_insert k v m) = if path_eqb p k then Some v else hm_get p m.
Proof.
  intros k v m p. induction m as [|[k' v'] m IH]; cbn [Generators.hm_insert hm_get].
  - destruct (path_eqb p k); reflexivity.
  - destruct (path_eqb k k') eqn:E; cbn [hm_get].
    + apply path_eqb_expr in E. destruct (path_eqb p k) eqn:F.
      * apply path_eqb_expr in F. assert (G : path_eqb p k' = true) by (apply path_eqb_expr; congruence). rewrite G. reflexivity.
      * apply path_eqb_false in F. assert (G : path_eqb p k' = false) by (apply path_eqb_false; congruence). rewrite G. reflexivity.
    + rewrite IH. destruct (path_eqb p k) eqn:F; [|reflexivity].
      apply path_eqb_expr in F. apply path_eqb_false in E.
      assert (G : path_eqb p k' = false) by (apply path_eqb_false; congruence). rewrite G. reflexivity.
Qed.
Lemma ghm_insert_keys {A} : forall k (v : A) m x, In x (map (fun e => path_expr (fst e)) (Generators.hm_insert k v m)) ->
  x = path_expr k \/ In x (map (fun e => path_expr (fst e)) m).
Proof.
  intros k v m x. induction m as [|[k' v'] m IH]; cbn [Generators.hm_insert map fst In].
  - intros [<- | []]. auto.
  - destruct (path_eqb k k'); cbn [map fst In]; intros [H | H]; auto. destruct (IH H); auto.
Qed.
Lemma ghm_insert_distinct {A} : forall k (v : A) m, distinct m -> distinct (Generators.hm_insert k v m).
Proof.
  intros k v m. unfold distinct. induction m as [|[k' v'] m IH]; cbn [Generators.hm_insert map fst]; intro D.
  - constructor; [intros []|constructor].
  - inversion D as [|? ? N D']; subst. destruct (path_eqb k k') eqn:E; cbn [map fst].
    + constructor; assumption.
    + constructor; [|apply IH, D']. intro H. apply ghm_insert_keys in H as [H | H]; [|exact (N H)].
      apply path_eqb_false in E. congruence.
Qed.
Lemma gcat_eqb_eq : forall a b, gcat_eqb a b = true <-> a = b.
Proof. intros a b. split; [destruct a, b; cbn; intro H; (reflexivity || discriminate)|intros ->; destruct b; reflexivity]. Qed.
Lemma cats_update_get : forall c f g c', cats_get c' (cats_update c f g) =
  if gcat_eqb c' c then Some (f (match cats_get c g with Some m => m | None => [] end)) else cats_get c' g.
Proof.
  intros c f g c'. induction g as [|[d m] g IH]; cbn [cats_update cats_get].
  - destruct (gcat_eqb c' c); reflexivity.
  - destruct (gcat_eqb c d) eqn:E; cbn [cats_get].
    + apply gcat_eqb_eq in E as ->. destruct (gcat_eqb c' d); reflexivity.
    + rewrite IH. destruct (gcat_eqb c' d) eqn:F; [|reflexivity].
      apply gcat_eqb_eq in F as ->. destruct (gcat_eqb d c) eqn:G; [|reflexivity].
      apply gcat_eqb_eq in G as ->. rewrite (proj2 (gcat_eqb_eq c c) eq_refl) in E. discriminate.
Qed.

(** ** Adding what was found *)
Definition gens_distinct (g : generators) : Prop := forall c m, cats_get c g = Some m -> distinct m.
Definition added (base : docpath) (occs : list occurrence) (st st' : store) : Prop :=
  rules_added base occs (st_rules st) (st_rules st') /\
  (forall c p, generator_at c (st_gens st') p =
     if gcat_eqb c (generators_of_kind (cat_name (st_rules st))) then last_of (gens_for base occs p) (generator_at c (st_gens st) p)
     else generator_at c (st_gens st) p) /\
  (distinct (cat_rules (st_rules st)) -> distinct (cat_rules (st_rules st'))) /\
  (gens_distinct (st_gens st) -> gens_distinct (st_gens st')).

Lemma rules_for_app : forall base a b p, rules_for base (a ++ b) p = rules_for base a p ++ rules_for base b p.
Proof. intros. apply flat_map_app. Qed.
Lemma gens_for_app : forall base a b p, gens_for base (a ++ b) p = gens_for base a p ++ gens_for base b p.
Proof. intros. apply flat_map_app. Qed.
Lemma last_of_app {A} : forall (a b : list A) o, last_of (a ++ b) o = last_of b (last_of a o).
Proof. induction a as [|x a IH]; intros b o; [reflexivity|]. cbn [app last_of]. apply IH. Qed.

Lemma added_nil : forall base st, added base [] st st.
Proof.
  intros base st. split; [|split; [|split; auto]].
  - split; [reflexivity|]. intro p. cbn. destruct (hm_get p (cat_rules (st_rules st))) as [rl|]; [|reflexivity].
    rewrite app_nil_r. destruct rl; reflexivity.
  - intros c p. cbn. destruct (gcat_eqb _ _); reflexivity.
Qed.
Lemma added_app : forall base a b s1 s2 s3, added base a s1 s2 -> added base b s2 s3 -> added base (a ++ b) s1 s3.
Proof.
  intros base a b s1 s2 s3 ((N1 & R1) & G1 & D1 & E1) ((N2 & R2) & G2 & D2 & E2).
  split; [|split; [|split; auto]].
  - split; [congruence|]. intro p. rewrite R2, R1, rules_for_app.
    destruct (hm_get p (cat_rules (st_rules s1))) as [rl|]; cbn [rl_rules rl_logic rl_cascaded].
    + rewrite app_assoc. reflexivity.
    + destruct (rules_for base a p) as [|x l]; cbn [app rl_rules rl_logic rl_cascaded]; reflexivity.
  - intros c p. rewrite G2, G1, N1, gens_for_app, last_of_app. destruct (gcat_eqb _ _); reflexivity.
Qed.

Lemma kind_ok : forall n, generator_category n = generators_of_kind n.
Proof. destruct n; reflexivity. Qed.
Lemma generator_at_add : forall n p g gs c q,
  generator_at c (add_generator_at n p g gs) q =
  if gcat_eqb c n && path_eqb q p then Some g else generator_at c gs q.
Proof.
  intros n p g gs c q. unfold generator_at, add_generator_at. rewrite cats_update_get.
  destruct (gcat_eqb c n) eqn:E; [|reflexivity]. apply gcat_eqb_eq in E as ->. cbn [andb].
  rewrite ghm_insert_get. destruct (path_eqb q p); [reflexivity|]. destruct (cats_get n gs); reflexivity.
Qed.
Lemma gens_distinct_add : forall n p g gs, gens_distinct gs -> gens_distinct (add_generator_at n p g gs).
Proof.
  intros n p g gs D c m. unfold add_generator_at. rewrite cats_update_get. destruct (gcat_eqb c n) eqn:E.
  - intro H. injection H as <-. apply ghm_insert_distinct. destruct (cats_get n gs) as [m|] eqn:F; [exact (D _ _ F)|constructor].
  - apply D.
Qed.

Lemma added_change : forall base a b st st', added base a st st' ->
  (forall p, rules_for base a p = rules_for base b p) -> (forall p, gens_for base a p = gens_for base b p) -> added base b st st'.
Proof.
  intros base a b st st' ((N & R) & G & D) HR HG. split; [split; [exact N|]; intro p; rewrite <- HR; apply R|].
  split; [|exact D]. intros c p. rewrite <- HG. apply G.
Qed.
Ltac by_path base r :=
  intro; unfold rules_for, gens_for; cbn [app flat_map o_route o_rules o_gens];
  match goal with |- context [path_eqb ?p (path_of base r)] => destruct (path_eqb p (path_of base r)) end;
  cbn [app]; rewrite ?app_nil_r; reflexivity.

(** One step: generators, then rules. *)
Lemma added_gens : forall base r gs v st,
  added base [mkOcc r [] gs v] st (fold_left (fun s g => add_gen (path_of base r) g s) gs st).
Proof.
  intros base r gs v. induction gs as [|g gs IH]; intro st.
  - cbn [fold_left]. apply added_change with (1 := added_nil base st); by_path base r.
  - cbn [fold_left]. assert (A : added base [mkOcc r [] [g] v] st (add_gen (path_of base r) g st)).
    { unfold add_gen. split; [|split; [|split]]; cbn [st_rules st_gens].
      - split; [reflexivity|]. intro p. unfold rules_for. cbn [flat_map o_route o_rules].
        destruct (path_eqb p (path_of base r)); cbn [app];
        (destruct (hm_get p (cat_rules (st_rules st))) as [[a b c]|]; [cbn [rl_rules rl_logic rl_cascaded]; rewrite app_nil_r|]; reflexivity).
      - intros c p. rewrite generator_at_add, kind_ok. unfold gens_for. cbn [flat_map o_route o_gens].
        destruct (gcat_eqb c _); cbn [andb]; [|reflexivity]. destruct (path_eqb p (path_of base r)); reflexivity.
      - auto.
      - apply gens_distinct_add. }
    apply added_change with (1 := added_app _ _ _ _ _ _ A (IH _)); by_path base r.
Qed.
Lemma added_rules : forall base r rs v st,
  added base [mkOcc r rs [] v] st
    (mkStore (fold_left (fun c rule => x_add_rule c (path_of base r) rule And) rs (st_rules st)) (st_gens st)).
Proof.
  intros base r rs v. induction rs as [|x rs IH]; intro st.
  - cbn [fold_left]. destruct st as [c g]. cbn [st_rules st_gens]. exact (added_gens base r [] v (mkStore c g)).
  - cbn [fold_left]. set (st1 := mkStore (x_add_rule (st_rules st) (path_of base r) x And) (st_gens st)).
    assert (A : added base [mkOcc r [x] [] v] st st1).
    { unfold st1, x_add_rule. split; [|split; [|split]]; cbn [st_rules st_gens cat_rules cat_name].
      - split; [reflexivity|]. intro p. cbn [cat_rules]. rewrite xhm_push_get. unfold rules_for. cbn [flat_map o_route o_rules].
        destruct (path_eqb p (path_of base r)) eqn:E; cbn [app].
        + apply path_eqb_expr in E. rewrite (hm_get_same _ _ _ E).
          destruct (hm_get (path_of base r) (cat_rules (st_rules st))); reflexivity.
        + destruct (hm_get p (cat_rules (st_rules st))) as [[a b c]|]; cbn [rl_rules rl_logic rl_cascaded];
          rewrite ?app_nil_r; reflexivity.
      - intros c p. unfold gens_for. cbn [flat_map o_route o_gens]. destruct (path_eqb p (path_of base r)); cbn [app last_of];
        destruct (gcat_eqb c _); reflexivity.
      - apply xhm_push_distinct.
      - auto. }
    specialize (IH st1). change (st_rules st1) with (x_add_rule (st_rules st) (path_of base r) x And) in IH.
    change (st_gens st1) with (st_gens st) in IH.
    apply added_change with (1 := added_app _ _ _ _ _ _ A IH); by_path base r.
Qed.
Lemma added_both : forall base r rs gs v st,
  let st1 := fold_left (fun s g => add_gen (path_of base r) g s) gs st in
  added base [mkOcc r rs gs v] st
    (mkStore (fold_left (fun c rule => x_add_rule c (path_of base r) rule And) rs (st_rules st1)) (st_gens st1)).
Proof.
  intros base r rs gs v st st1. apply added_change with (1 := added_app _ _ _ _ _ _ (added_gens base r gs v st) (added_rules base r rs v st1)); by_path base r.
Qed.

(** ** What a matcher object says *)
Lemma mapM_Forall2 {A B E} (f : A -> outcome B E) : forall l l', mapM f l = Ok l' <-> Forall2 (fun a b => f a = Ok b) l l'.
Proof.
  induction l as [|a l IH]; intro l'.
  - cbn. split; [intro H; injection H as <-; constructor|intro H; inversion H; reflexivity].
  - cbn. fold (mapM f). split.
    + destruct (f a) as [b|e|] eqn:F; cbn; try discriminate. destruct (mapM f l) as [r|e|] eqn:M; cbn; try discriminate.
      intro H. injection H as <-. constructor; [exact F|]. apply IH. reflexivity.
    + intro H. inversion H as [|? b ? r F R]; subst. rewrite F. cbn. apply IH in R. rewrite R. reflexivity.
Qed.
Lemma Forall2_iff {A B} (P Q : A -> B -> Prop) : (forall a b, P a b <-> Q a b) -> forall l l', Forall2 P l l' <-> Forall2 Q l l'.
Proof.
  intros H l l'. split; intro F; induction F; constructor; auto; apply H; assumption.
Qed.

Section Read.
Variable w : world.
Variable junk : str -> nat.

Lemma create_made : forall ty m r, create_rule w ty m = Ok r <-> made w ty m r.
Proof.
  intros ty m r. unfold create_rule, made. destruct (rule_create w (rj_for w (JObj m)) ty m) as [a|e|].
  - split; [intro H; injection H as <-; eauto|intros (b & H & ->); injection H as ->; reflexivity].
  - split; [discriminate|intros (b & H & _); discriminate].
  - split; [discriminate|intros (b & H & _); discriminate].
Qed.
Lemma element_made : forall e r, rule_of_element w e = Ok r <->
  exists a t, e = JObj a /\ obj_get (S_ "pact:matcher:type") a = Some t /\ made w (json_to_string w t) a r.
Proof.
  intros e r. unfold rule_of_element. change matcher_type with (S_ "pact:matcher:type"). split.
  - destruct e; try discriminate. destruct (obj_get (S_ "pact:matcher:type") m) as [t|] eqn:G; [|discriminate].
    intro H. apply create_made in H. eauto 6.
  - intros (a & t & -> & G & M). rewrite G. apply create_made, M.
Qed.
Lemma in_keys_get {A} : forall k (m : list (str * A)), In k (keys m) <-> exists v, obj_get k m = Some v.
Proof.
  intros k m. induction m as [|[k' v] m IH]; cbn [keys map fst In obj_get]; [split; [intros []|intros [? H]; discriminate]|].
  destruct (str_eqb_spec k k') as [->|N].
  - split; eauto.
  - rewrite <- IH. unfold keys. split; [intros [H|H]; [congruence|exact H]|auto].
Qed.
Lemma item_resolved : forall m i r, resolve_item m i = Ok r <-> reference_resolved m i r.
Proof.
  intros m [a|name] r; cbn.
  - split; [intro H; injection H as ->; reflexivity|intros ->; reflexivity].
  - rewrite in_keys_get. destruct (obj_get name m) as [x|].
    + split; [intro H; injection H as <-; eauto|intros [_ ->]; reflexivity].
    + split; [discriminate|intros [[x H] _]; discriminate].
Qed.
Definition expr_test (val : str) : bool :=
  negb (str_eqb val (S_ "eachKey")) && negb (str_eqb val (S_ "eachValue")) && negb (str_eqb val (S_ "notEmpty"))
  && is_matcher_def junk val.
Lemma expr_test_ok : forall val, expr_test val = true <-> is_expression junk val.
Proof.
  intro val. unfold expr_test, is_expression.
  destruct (str_eqb_spec val (S_ "eachKey")) as [A|A]; cbn [negb andb]; [split; [discriminate|intros (_ & H & _); contradiction]|].
  destruct (str_eqb_spec val (S_ "eachValue")) as [B|B]; cbn [negb andb]; [split; [discriminate|intros (_ & _ & H & _); contradiction]|].
  destruct (str_eqb_spec val (S_ "notEmpty")) as [C|C]; cbn [negb andb]; [split; [discriminate|intros (_ & _ & _ & H); contradiction]|].
  tauto.
Qed.
(** The rules read from a matcher object are exactly those it says. *)
Theorem C75_what_a_matcher_says : forall m rules g, In (S_ "pact:matcher:type") (keys m) ->
  (matchers_from_integration_json w junk m = Ok (rules, g) <-> says w junk m rules g).
Proof.
  intros m rules g K. apply in_keys_get in K as [t T]. unfold matchers_from_integration_json.
  change matcher_type with (S_ "pact:matcher:type"). rewrite T.
  assert (L : (exists l, t = JArr l) \/ (forall l, t <> JArr l)) by (destruct t; (right; intros; discriminate) || (left; eauto)).
  destruct L as [[l ->]|L].
  - split.
    + destruct (mapM (rule_of_element w) l) as [rs|e|] eqn:M; cbn [bind]; try discriminate.
      intro H. injection H as -> <-. eapply says_list; [exact T|]. apply mapM_Forall2 in M.
      revert M. apply Forall2_iff. intros. symmetry. apply element_made.
    + intro H. destruct H as [els rs T' F | t' d rs T' L' _ _ _ | t' r T' L' _ _].
      * rewrite T in T'. injection T' as <-. assert (M : mapM (rule_of_element w) l = Ok rs).
        { apply mapM_Forall2. revert F. apply Forall2_iff. intros. apply element_made. }
        rewrite M. reflexivity.
      * rewrite T in T'. injection T' as <-. exfalso. eapply L'. reflexivity.
      * rewrite T in T'. injection T' as <-. exfalso. eapply L'. reflexivity.
  - assert (E : forall X : outcome (list xrule * option generator) unit,
        match t with JArr arr => X | _ =>
          if expr_test (json_to_string w t) then
            match parse_matcher_def junk w (json_to_string w t) with
            | Some d => bind (mapM (resolve_item m) (x_rules d)) (fun rules => Ok (rules, x_gen d))
            | None => Err tt
            end
          else bind (create_rule w (json_to_string w t) m) (fun r => Ok ([r], None))
        end =
        if expr_test (json_to_string w t) then
            match parse_matcher_def junk w (json_to_string w t) with
            | Some d => bind (mapM (resolve_item m) (x_rules d)) (fun rules => Ok (rules, x_gen d))
            | None => Err tt
            end
          else bind (create_rule w (json_to_string w t) m) (fun r => Ok ([r], None))).
    { intro X. destruct t; try reflexivity. exfalso. eapply L. reflexivity. }
    match goal with |- ?lhs = _ <-> _ => match type of E with forall X, _ = ?rhs =>
      replace lhs with rhs by (symmetry; destruct t; try (exact (E (Err tt))); exfalso; eapply L; reflexivity) end end.
    clear E. destruct (expr_test (json_to_string w t)) eqn:X.
    + apply expr_test_ok in X. split.
      * destruct (parse_matcher_def junk w (json_to_string w t)) as [d|] eqn:P; [|discriminate].
        destruct (mapM (resolve_item m) (x_rules d)) as [rs|e|] eqn:M; cbn [bind]; try discriminate.
        intro H. injection H as -> <-. eapply says_expression; eauto. apply mapM_Forall2 in M.
        revert M. apply Forall2_iff. intros. symmetry. apply item_resolved.
      * intro H. destruct H as [els rs T' F | t' d rs T' L' X' P F | t' r T' L' X' M]; rewrite T in T'; injection T' as T'; try subst t'.
        -- exfalso. exact (L _ T').
        -- rewrite P. assert (M : mapM (resolve_item m) (x_rules d) = Ok rs).
           { apply mapM_Forall2. revert F. apply Forall2_iff. intros. apply item_resolved. }
           rewrite M. reflexivity.
        -- contradiction.
    + assert (X' : ~ is_expression junk (json_to_string w t)) by (rewrite <- expr_test_ok; congruence). split.
      * destruct (create_rule w (json_to_string w t) m) as [r|e|] eqn:C; cbn [bind]; try discriminate.
        intro H. injection H as <- <-. eapply says_name; eauto. apply create_made, C.
      * intro H. destruct H as [els rs T' F | t' d rs T' L' X'' P F | t' r T' L' X'' M]; rewrite T in T'; injection T' as T'; try subst t'.
        -- exfalso. exact (L _ T').
        -- contradiction.
        -- apply create_made in M. rewrite M. reflexivity.
Qed.

Lemma path_of_snoc : forall base r s, path_of base (r ++ [s]) = extend (path_of base r) s.
Proof. intros. unfold path_of. rewrite fold_left_app. reflexivity. Qed.
Lemma pact_key_ok : forall k, is_pact_key k = true <-> pact_key k.
Proof.
  intro k. unfold is_pact_key, pact_key. assert (G : forall p s, RuleExpr.starts_with p s = true <-> exists rest, s = p ++ rest).
  { induction p as [|x p IH]; intro s0; [cbn; split; [eauto|reflexivity]|]. destruct s0 as [|y s0]; cbn [RuleExpr.starts_with].
    - split; [discriminate|intros [r H]; discriminate].
    - rewrite andb_true_iff, N.eqb_eq, IH. split; [intros (-> & r & ->); exists r; reflexivity|].
      intros [r H]. injection H as -> ->. split; eauto. }
  apply G.
Qed.
Lemma contains_ok : forall m t, obj_get (S_ "pact:matcher:type") m = Some t -> (is_array_contains t = true <-> contains_matcher m).
Proof.
  intros m t T. unfold contains_matcher. rewrite T. unfold is_array_contains. destruct t; try (split; [discriminate|intros [H|H]; discriminate]).
  rewrite orb_true_iff, !str_eqb_eq. split; intros [H|H]; [left|right|left|right]; congruence.
Qed.
Lemma values_ok : forall rules, existsb x_is_values_matcher rules = true <-> Exists about_values rules.
Proof.
  intro rules. rewrite existsb_exists, Exists_exists. split; intros (r & I & H); exists r; (split; [exact I|]).
  - unfold about_values. destruct r as [a| | |]; cbn in H; try discriminate; [|eauto].
    destruct a; try discriminate; eauto.
  - destruct H as [->|[[d ->]|[d ->]]]; reflexivity.
Qed.
Lemma own_generator_ok : forall m p st,
  (match obj_get generator_type m with
   | Some gen => add_gen_opt p (gen_from_map w (json_to_string w gen) m) st
   | None => st
   end) = fold_left (fun s g => add_gen p g s) (own_generator w m) st.
Proof.
  intros m p st. unfold own_generator. change generator_type with (S_ "pact:generator:type").
  destruct (obj_get (S_ "pact:generator:type") m) as [t|]; [|reflexivity].
  destruct (gen_from_map w (json_to_string w t) m); reflexivity.
Qed.

Definition sound (rec : recurse) : Prop := forall base to ta sa r v st v' st',
  rec to ta sa (path_of base r) v st = Ok (v', st') ->
  exists occs, reading w junk (mkMode to ta sa) r v v' occs /\ added base occs st st'.

Section Sound.
Variable rec : recurse.
Hypothesis HR : sound rec.

Lemma items_sound : forall base md r l i st l' st',
  items_in_order (fun i val => rec (elems_any_keys md) false (elems_any_keys md)
     (if any_elems md then push_star_index (path_of base r) else push_index (path_of base r) i) val) i l st = Ok (l', st') ->
  exists occs, reading_items w junk md r i l l' occs /\ added base occs st st'.
Proof.
  intros base md r. induction l as [|x l IH]; intros i st l' st' H.
  - cbn in H. injection H as <- <-. exists []. split; [constructor|apply added_nil].
  - cbn [items_in_order] in H.
    assert (P : (if any_elems md then push_star_index (path_of base r) else push_index (path_of base r) i)
                = path_of base (r ++ [if any_elems md then AnyElem else Elem i])).
    { rewrite path_of_snoc. destruct (any_elems md); reflexivity. }
    rewrite P in H. clear P.
    destruct (rec _ _ _ (path_of base (r ++ _)) x st) as [[x' st1]|e|] eqn:R; cbn [bind fst snd] in H; try discriminate.
    destruct (items_in_order _ (i + 1) l st1) as [[l1 st2]|e|] eqn:L; cbn [bind fst snd] in H; try discriminate.
    injection H as <- <-. apply HR in R as (o1 & R & A1). apply IH in L as (o2 & L & A2).
    exists (o1 ++ o2). split; [constructor; assumption|]. eapply added_app; eassumption.
Qed.
Lemma entries_sound : forall base md r m st m' st',
  entries_in_order (fun key val => rec false false false
     (if any_keys md then join (path_of base r) (S_ "*") else join (path_of base r) key) val)
     (filter (fun kv => negb (is_pact_key (fst kv))) m) st = Ok (m', st') ->
  exists occs, reading_entries w junk md r m m' occs /\ added base occs st st'.
Proof.
  intros base md r. induction m as [|[k x] m IH]; intros st m' st' H.
  - cbn in H. injection H as <- <-. exists []. split; [constructor|apply added_nil].
  - cbn [filter fst] in H. destruct (is_pact_key k) eqn:K; cbn [negb] in H.
    + apply pact_key_ok in K. apply IH in H as (o & R & A). exists o. split; [apply re_skip; assumption|exact A].
    + assert (K' : ~ pact_key k) by (rewrite <- pact_key_ok; congruence). cbn [entries_in_order] in H.
      assert (P : (if any_keys md then join (path_of base r) (S_ "*") else join (path_of base r) k)
                = path_of base (r ++ [if any_keys md then AnyKey else Key k])).
      { rewrite path_of_snoc. destruct (any_keys md); reflexivity. }
      rewrite P in H. clear P.
      destruct (rec _ _ _ (path_of base (r ++ _)) x st) as [[x' st1]|e|] eqn:R; cbn [bind fst snd] in H; try discriminate.
      destruct (entries_in_order _ _ st1) as [[l1 st2]|e|] eqn:L; cbn [bind fst snd] in H; try discriminate.
      injection H as <- <-. apply HR in R as (o1 & R & A1). apply IH in L as (o2 & L & A2).
      exists (o1 ++ o2). split; [apply re_cons; assumption|]. eapply added_app; eassumption.
Qed.
Lemma variants_sound : forall l i vs l', process_variants rec i l = Ok (vs, l') -> reading_variants w junk i l l' vs.
Proof.
  induction l as [|x l IH]; intros i vs l' H.
  - cbn in H. injection H as <- <-. constructor.
  - cbn [process_variants] in H. change path_root with (path_of path_root []) in H.
    destruct (rec _ _ _ (path_of path_root []) x _) as [[x' st]|e|] eqn:R; cbn [bind fst snd] in H; try discriminate.
    destruct (process_variants rec (i + 1) l) as [[vs1 l1]|e|] eqn:V; cbn [bind fst snd] in H; try discriminate.
    injection H as <- <-. apply HR in R as (o & R & A). destruct A as (AR & AG & D & E).
    cbn [st_rules st_gens cat_rules] in *. eapply rv_cons with (occs := o).
    + exact R.
    + exact AR.
    + apply D. constructor.
    + intro p. specialize (AG GcBody p). cbn in AG. unfold generator_at in AG. cbn in AG. rewrite <- AG.
      destruct (cats_get GcBody (st_gens st)); reflexivity.
    + destruct (cats_get GcBody (st_gens st)) as [g|] eqn:G; [|constructor]. refine (E _ _ _ G). intros c m F. discriminate.
    + apply IH, V.
Qed.

Lemma matcher_sound : forall base to ta sa r m t st v' st', obj_get (S_ "pact:matcher:type") m = Some t ->
  process_matcher w junk rec m (path_of base r) to t st = Ok (v', st') ->
  exists occs, reading w junk (mkMode to ta sa) r (JObj m) v' occs /\ added base occs st st'.
Proof.
  intros base to ta sa r m t st v' st' T H. unfold process_matcher in H.
  assert (K : In (S_ "pact:matcher:type") (keys m)) by (apply in_keys_get; eauto).
  destruct (matcher_result w junk rec m (path_of base r) to t st) as [[res st1]|e|] eqn:M; cbn [bind fst snd] in H; try discriminate.
  rewrite own_generator_ok in H. unfold matcher_result in M. pose proof (contains_ok m t T) as C.
  destruct (is_array_contains t) eqn:AC.
  - assert (C' : contains_matcher m) by (apply C; reflexivity).
    destruct (obj_get (S_ "variants") m) as [vv|] eqn:V.
    + assert (VA : (exists l, vv = JArr l) \/ (forall l, vv <> JArr l)) by (destruct vv; (right; intros; discriminate) || (left; eauto)).
      destruct VA as [[l ->]|VA].
      * destruct (process_variants rec 0 l) as [[vs l']|e|] eqn:PV; cbn [bind fst snd] in M; try discriminate.
        injection M as <- <-. injection H as <- <-. eexists. split.
        -- eapply rd_contains; [exact C'|exact V|apply variants_sound, PV].
        -- apply added_both.
      * assert (E : res = Err tt /\ st1 = st) by (destruct vv; try (injection M as <- <-; auto); exfalso; eapply VA; reflexivity).
        destruct E as [-> ->]. injection H as <- <-. eexists. split.
        -- apply rd_wrong; [exact K| |contradiction]. intros _ l E. rewrite V in E. injection E as E. exact (VA _ E).
        -- apply added_gens.
    + injection M as <- <-. injection H as <- <-. eexists. split.
      * apply rd_wrong; [exact K| |contradiction]. intros _ l E. rewrite V in E. discriminate.
      * apply added_gens.
  - assert (C' : ~ contains_matcher m) by (intro X; apply C in X; discriminate).
    pose proof (C75_what_a_matcher_says m) as SY.
    destruct (matchers_from_integration_json w junk m) as [[rules g]|e|] eqn:MF; [| |discriminate].
    + assert (SY' : says w junk m rules g) by (apply SY; [exact K|reflexivity]).
      destruct (obj_get (S_ "value") m) as [inner|] eqn:V.
      * destruct (rec _ _ _ (path_of base r) inner st) as [[x st2]|e|] eqn:R; cbn [bind fst snd] in M; try discriminate.
        injection M as <- <-. injection H as <- <-. apply HR in R as (o & R & A). exists (o ++ [mkOcc r rules (optional g ++ own_generator w m) x]). split.
        -- eapply rd_matcher; [exact C'|exact SY'|exact V|apply values_ok|exact R].
        -- eapply added_app; [exact A|]. 
           replace (add_gen_opt (path_of base r) g st2) with (fold_left (fun s g => add_gen (path_of base r) g s) (optional g) st2) by (destruct g; reflexivity).
           rewrite <- fold_left_app. apply added_both.
      * cbn [bind fst snd] in M. injection M as <- <-. injection H as <- <-.
        exists [mkOcc r rules (optional g ++ own_generator w m) JNull]. split.
        -- apply rd_matcher_alone; [exact C'|exact SY'|exact V].
        -- replace (add_gen_opt (path_of base r) g st) with (fold_left (fun s g => add_gen (path_of base r) g s) (optional g) st) by (destruct g; reflexivity).
           rewrite <- fold_left_app. apply added_both.
    + injection M as <- <-. injection H as <- <-. eexists. split.
      * apply rd_wrong; [exact K|contradiction|]. intros _ rules g Hs. apply SY in Hs; [discriminate|exact K].
      * apply added_gens.
Qed.
End Sound.

Lemma process_sound : forall fuel, sound (process w junk fuel).
Proof.
  induction fuel as [|f IH]; [discriminate|]. intros base to ta sa r v st v' st' H. cbn [process] in H.
  assert (O : (exists m, v = JObj m) \/ (exists l, v = JArr l) \/ ((forall m, v <> JObj m) /\ (forall l, v <> JArr l))).
  { destruct v; eauto; right; right; split; discriminate. }
  destruct O as [[m ->]|[[l ->]|[NO NA]]].
  - unfold process_object in H. change matcher_type with (S_ "pact:matcher:type") in H.
    destruct (obj_get (S_ "pact:matcher:type") m) as [t|] eqn:T.
    + eapply matcher_sound; eassumption.
    + destruct (entries_in_order _ _ st) as [[m' st1]|e|] eqn:E; cbn [bind fst snd] in H; try discriminate.
      injection H as <- <-. apply (entries_sound _ IH base (mkMode to ta sa)) in E as (o & R & A). exists o. split; [|exact A].
      apply rd_object; [|exact R]. intro K. apply in_keys_get in K as [x K]. congruence.
  - unfold process_array in H. destruct (items_in_order _ 0 l st) as [[l' st1]|e|] eqn:E; cbn [bind fst snd] in H; try discriminate.
    injection H as <- <-. apply (items_sound _ IH base (mkMode to ta sa)) in E as (o & R & A). exists o. split; [|exact A].
    apply rd_array, R.
  - assert (E : v' = v /\ st' = st) by (destruct v; first [injection H as <- <-; auto | exfalso; eapply NO; reflexivity | exfalso; eapply NA; reflexivity]).
    destruct E as [-> ->]. exists []. split; [apply rd_other; assumption|apply added_nil].
Qed.

(** ** Totality *)
Definition total (n : nat) (rec : recurse) : Prop := forall to ta sa p v st,
  (json_depth v <= n)%nat -> rec to ta sa p v st <> Err tt.
Lemma bind_not_err {A B} (o : outcome A unit) (f : A -> outcome B unit) :
  o <> Err tt -> (forall a, f a <> Err tt) -> bind o f <> Err tt.
Proof. intros H G. destruct o as [a|e|]; cbn; [apply G|destruct e; congruence|discriminate]. Qed.
Lemma item_depth : forall l x n, In x l -> (json_depth (JArr l) <= S n)%nat -> (json_depth x <= n)%nat.
Proof.
  induction l as [|y l IH]; intros x n I0 D; [destruct I0|]; destruct I0 as [-> | I].
  - change (S (Nat.max (json_depth x) (pred (json_depth (JArr l)))) <= S n)%nat in D. lia.
  - apply IH; [exact I|]. change (S (Nat.max (json_depth y) (pred (json_depth (JArr l)))) <= S n)%nat in D.
    assert (json_depth (JArr l) = S (pred (json_depth (JArr l)))) by reflexivity. lia.
Qed.
Lemma entry_depth : forall m k x n, In (k, x) m -> (json_depth (JObj m) <= S n)%nat -> (json_depth x <= n)%nat.
Proof.
  induction m as [|y m IH]; intros k x n I0 D; [destruct I0|]; destruct I0 as [-> | I].
  - change (S (Nat.max (json_depth x) (pred (json_depth (JObj m)))) <= S n)%nat in D. lia.
  - apply (IH k); [exact I|]. change (S (Nat.max (json_depth (snd y)) (pred (json_depth (JObj m)))) <= S n)%nat in D.
    assert (json_depth (JObj m) = S (pred (json_depth (JObj m)))) by reflexivity. lia.
Qed.
Lemma process_total : forall fuel, total fuel (process w junk fuel).
Proof.
  induction fuel as [|f IH]; intros to ta sa p v st D.
  - pose proof (depth_pos v). lia.
  - cbn [process]. destruct v as [| | | |l|m]; try discriminate.
    + unfold process_array. apply bind_not_err; [|discriminate].
      assert (Q : forall l0 i st0, (forall x, In x l0 -> In x l) -> items_in_order
        (fun i val => process w junk f sa false sa (if ta then push_star_index p else push_index p i) val) i l0 st0 <> Err tt).
      { induction l0 as [|x l0 IHl]; intros i st0 I; [discriminate|]. cbn [items_in_order].
        apply bind_not_err; [apply IH, (item_depth l); [apply I; left; reflexivity|exact D]|].
        intro a. apply bind_not_err; [|discriminate]. apply IHl. intros y Iy. apply I. right. exact Iy. }
      apply Q. auto.
    + unfold process_object. destruct (obj_get matcher_type m) as [t|] eqn:T.
      * unfold process_matcher. apply bind_not_err.
        -- unfold matcher_result. destruct (is_array_contains t).
           ++ destruct (obj_get (S_ "variants") m) as [[| | | |l|]|] eqn:V; try discriminate.
              apply bind_not_err; [|discriminate]. apply obj_get_in in V.
              assert (Q : forall l0 i, (forall x, In x l0 -> In x l) -> process_variants (process w junk f) i l0 <> Err tt).
              { induction l0 as [|x l0 IHl]; intros i I; [discriminate|]. cbn [process_variants].
                apply bind_not_err.
                - apply IH. pose proof (entry_depth m _ _ f V D). pose proof (item_depth l x (pred (json_depth (JArr l))) (I x (or_introl eq_refl))). cbn [json_depth pred] in *. lia.
                - intro a. apply bind_not_err; [|discriminate]. apply IHl. intros y Iy. apply I. right. exact Iy. }
              apply Q. auto.
           ++ destruct (matchers_from_integration_json w junk m) as [[rules g]|e|]; try discriminate.
              apply bind_not_err; [|discriminate]. destruct (obj_get (S_ "value") m) as [inner|] eqn:V; [|discriminate].
              apply IH. apply obj_get_in in V. eapply entry_depth; eassumption.
        -- intros [res st1]. cbn [fst snd]. destruct res as [[rules v]|e|]; discriminate.
      * apply bind_not_err; [|discriminate].
        assert (Q : forall m0 st0, (forall x, In x m0 -> In x m) -> entries_in_order
          (fun key val => process w junk f false false false (if to then join p (S_ "*") else join p key) val)
          (filter (fun kv => negb (is_pact_key (fst kv))) m0) st0 <> Err tt).
        { induction m0 as [|[k x] m0 IHl]; intros st0 I; [discriminate|]. cbn [filter fst].
          assert (I' : forall y, In y m0 -> In y m) by (intros y Iy; apply I; right; exact Iy).
          destruct (is_pact_key k); cbn [negb]; [apply IHl, I'|]. cbn [entries_in_order].
          apply bind_not_err; [apply IH, (entry_depth m k); [apply I; left; reflexivity|exact D]|].
          intro a. apply bind_not_err; [|discriminate]. apply IHl, I'. }
        apply Q. auto.
Qed.
End Read.

(** ** The theorems *)
(** What processing a document gives is what the document says: the example value, and the rules and
    generators of all its matchers added to those there were. *)
Theorem C75_document : forall w junk v st v' st',
  process_json_value w junk v st = Ok (v', st') ->
  exists occs, reading w junk exactly [] v v' occs /\
    rules_added path_root occs (st_rules st) (st_rules st') /\
    gens_added path_root occs (generator_at (generators_of_kind (cat_name (st_rules st))) (st_gens st))
                    (generator_at (generators_of_kind (cat_name (st_rules st))) (st_gens st')) /\
    (forall c, c <> generators_of_kind (cat_name (st_rules st)) ->
       forall p, generator_at c (st_gens st') p = generator_at c (st_gens st) p) /\
    (distinct (cat_rules (st_rules st)) -> distinct (cat_rules (st_rules st'))).
Proof.
  intros w junk v st v' st' H. unfold process_json_value in H. change path_root with (path_of path_root []) in H.
  apply process_sound in H as (occs & R & A). exists occs. split; [exact R|]. destruct A as (AR & AG & AD & _).
  split; [exact AR|]. split; [|split; [|exact AD]].
  - intro p. rewrite AG, (proj2 (gcat_eqb_eq _ _) eq_refl). reflexivity.
  - intros c N p. rewrite AG. destruct (gcat_eqb c _) eqn:E; [|reflexivity]. apply gcat_eqb_eq in E. contradiction.
Qed.
(** Processing fails only by a panic (see [C75_outcome]). *)
Theorem C75_total : forall w junk v st, process_json_value w junk v st <> Err tt.
Proof. intros. apply process_total. lia. Qed.

(** *** The example value holds no markers *)
Theorem C75_no_markers_left : forall w junk md r v v' occs, reading w junk md r v v' occs ->
  unmarked v' /\ Forall (fun o => unmarked (o_value o)) occs.
Proof.
  intros w junk.
  pose (P1 := fun (_ : mode) (_ : route) (_ v' : json) occs => unmarked v' /\ Forall (fun o => unmarked (o_value o)) occs).
  pose (P2 := fun (_ : mode) (_ : route) (_ : N) (_ l' : list json) occs => Forall unmarked l' /\ Forall (fun o => unmarked (o_value o)) occs).
  pose (P3 := fun (_ : mode) (_ : route) (_ m' : list (str * json)) occs =>
     Forall (fun kv => ~ pact_key (fst kv) /\ unmarked (snd kv)) m' /\ Forall (fun o => unmarked (o_value o)) occs).
  pose (P4 := fun (_ : N) (_ l' : list json) (_ : list (N * category_ xrule * gen_map)) => Forall unmarked l').
  apply (reading_rel w junk P1 P2 P3 P4); unfold P1, P2, P3, P4; clear P1 P2 P3 P4.
  - intros md r v NO NA. split; [apply um_other; assumption|constructor].
  - intros md r l l' occs _ [A B]. split; [apply um_arr, A|exact B].
  - intros md r m m' occs _ _ [A B]. split; [apply um_obj, A|exact B].
  - intros md r m rules g inner v' occs values _ _ _ _ _ [A B]. split; [exact A|]. apply Forall_app. split; [exact B|]. constructor; [exact A|constructor].
  - intros md r m rules g _ _ _. split; [|constructor; [|constructor]]; apply um_other; discriminate.
  - intros md r m variants variants' l' _ _ _ A. split; [|constructor; [|constructor]]; apply um_arr, A.
  - intros md r m _ _ _. split; [|constructor; [|constructor]]; apply um_other; discriminate.
  - split; constructor.
  - intros md r i x l x' l' o o' _ [A B] _ [C D]. split; [constructor; assumption|]. apply Forall_app. auto.
  - split; constructor.
  - intros md r k x m m' occs _ _ H. exact H.
  - intros md r k x m x' m' o o' K _ [A B] _ [C D]. split; [constructor; [split|]; assumption|]. apply Forall_app. auto.
  - constructor.
  - intros i x l x' l' occs c gens vs _ [A _] _ _ _ _ _ B. constructor; assumption.
Qed.

(** *** A document without markers stays as it is *)
Theorem C75_plain_documents : forall w junk v, unmarked v ->
  forall md r v' occs, reading w junk md r v v' occs -> v' = v /\ occs = [].
Proof.
  intros w junk v. induction v using json_ind'; intros U md r v' occs R;
    try (inversion R; subst; [split; reflexivity|..]; discriminate).
  - inversion R as [? ? ? _ NA|? ? ? l' ? RI| | | | | ]; subst; [exfalso; eapply NA; reflexivity|].
    assert (UL : Forall unmarked l) by (inversion U as [? _ NA|? UL|]; subst; [exfalso; eapply NA; reflexivity|exact UL]).
    clear R U. assert (Q : forall i md0, reading_items w junk md0 r i l l' occs -> l' = l /\ occs = []).
    { clear RI. revert l' occs. induction l as [|x l IHl]; intros l' occs i md0 RI; inversion RI; subst; [auto|].
      inversion H as [|? ? HX HL]; subst. inversion UL as [|? ? UX UL']; subst.
      match goal with A : reading _ _ _ _ x _ _, B : reading_items _ _ _ _ _ l _ _ |- _ =>
          destruct (HX UX _ _ _ _ A) as [-> ->]; destruct (IHl HL UL' _ _ _ _ B) as [-> ->] end. auto. }
    destruct (Q _ _ RI) as [-> ->]. auto.
  - assert (UM : Forall (fun kv => ~ pact_key (fst kv) /\ unmarked (snd kv)) m).
    { inversion U as [? NO _| |? UM]; subst; [exfalso; eapply NO; reflexivity|exact UM]. }
    assert (NK : ~ In (S_ "pact:matcher:type") (keys m)).
    { intro K. apply in_map_iff in K as ([k x] & E & I). cbn [fst] in E. subst k. rewrite Forall_forall in UM.
      apply (proj1 (UM _ I)). exists (S_ "matcher:type"). reflexivity. }
    assert (NS : forall rules g, ~ says w junk m rules g).
    { intros rules g [? ? G|? ? ? G|? ? G]; apply NK, in_keys_get; eauto. }
    inversion R as [? ? ? NO _| |? ? ? m' ? _ RE|? ? ? rules g ? ? ? ? _ SY|? ? ? rules g _ SY|? ? ? ? ? ? [C|C]|? ? ? K]; subst;
      [exfalso; eapply NO; reflexivity| |exfalso; eapply NS; exact SY|exfalso; eapply NS; exact SY
      |exfalso; apply NK, in_keys_get; eauto|exfalso; apply NK, in_keys_get; eauto|contradiction].
    clear R U NK NS. assert (Q : forall md0, reading_entries w junk md0 r m m' occs -> m' = m /\ occs = []).
    { clear RE. revert m' occs. induction m as [|[k x] m IHm]; intros m' occs md0 RE; inversion RE; subst; [auto|exfalso|].
      - inversion UM as [|? ? [N _] _]; subst. apply N. assumption.
      - inversion H as [|? ? HX HM]; subst. inversion UM as [|? ? [N UX] UM']; subst. cbn [snd] in *.
        match goal with A : reading _ _ exactly _ x _ _, B : reading_entries _ _ _ _ m _ _ |- _ =>
          destruct (HX UX _ _ _ _ A) as [-> ->]; destruct (IHm HM UM' _ _ _ B) as [-> ->] end. auto. }
    destruct (Q _ RE) as [-> ->]. auto.
Qed.

(** *** Rules are registered where the example values are *)
Theorem C75_matchers_lead_to_their_values : forall w junk md r v v' occs, reading w junk md r v v' occs ->
  forall o, In o occs -> exists s loc, o_route o = r ++ s /\ down s v' loc (o_value o).
Proof.
  intros w junk.
  pose (G := fun (r : route) v' occs => forall o : occurrence, In o occs -> exists s loc, o_route o = r ++ s /\ down s v' loc (o_value o)).
  pose (P1 := fun (_ : mode) (r : route) (_ v' : json) occs => G r v' occs).
  pose (P2 := fun (_ : mode) (r : route) (i : N) (_ l' : list json) occs =>
     forall before, N.of_nat (length before) = i -> G r (JArr (before ++ l')) occs).
  pose (P3 := fun (_ : mode) (r : route) (_ m' : list (str * json)) occs => forall before, G r (JObj (before ++ m')) occs).
  pose (P4 := fun (_ : N) (_ l' : list json) (_ : list (N * category_ xrule * gen_map)) => True).
  assert (Here : forall r rules gens v, G r v [mkOcc r rules gens v]).
  { intros r rules gens v o [<- | []]. exists [], []. rewrite app_nil_r. split; [reflexivity|constructor]. }
  assert (App : forall r v a b, G r v a -> G r v b -> G r v (a ++ b)).
  { intros r v a b A B o I. apply in_app_or in I as [I|I]; auto. }
  apply (reading_rel w junk P1 P2 P3 P4); unfold P1, P2, P3, P4; clear P1 P2 P3 P4.
  - intros md r v NO NA o [].
  - intros md r l l' occs _ H. exact (H [] eq_refl).
  - intros md r m m' occs _ _ H. exact (H []).
  - intros md r m rules g inner v' occs values _ _ _ _ _ H. apply App; [exact H|apply Here].
  - intros. apply Here.
  - intros. apply Here.
  - intros. apply Here.
  - intros md r i b _ o [].
  - intros md r i x l x' l' o o' _ HX _ HL b L. apply App.
    + intros y I. destruct (HX y I) as (s & loc & E & D). exists ((if any_elems md then AnyElem else Elem i) :: s), (show_N i :: loc).
      split; [rewrite E, <- app_assoc; reflexivity|].
      assert (Nt : nth_error (b ++ x' :: l') (N.to_nat i) = Some x').
      { rewrite nth_error_app2 by lia. replace (N.to_nat i - length b)%nat with 0%nat by lia. reflexivity. }
      destruct (any_elems md); econstructor; eassumption.
    + specialize (HL (b ++ [x'])). rewrite <- app_assoc in HL. apply HL. rewrite app_length. cbn [length]. lia.
  - intros md r b o [].
  - intros md r k x m m' occs _ _ H. exact H.
  - intros md r k x m x' m' o o' K _ HX _ HM b. apply App.
    + intros y I. destruct (HX y I) as (s & loc & E & D). exists ((if any_keys md then AnyKey else Key k) :: s), (k :: loc).
      split; [rewrite E, <- app_assoc; reflexivity|].
      assert (Nt : In (k, x') (b ++ (k, x') :: m')) by (apply in_or_app; right; left; reflexivity).
      destruct (any_keys md); econstructor; eassumption.
    + specialize (HM (b ++ [(k, x')])). rewrite <- app_assoc in HM. exact HM.
  - exact (fun _ => Logic.I).
  - intros. exact Logic.I.
Qed.

Lemma accepts_snoc : forall ts loc t f, length ts = length loc -> accepts ts loc -> step_accepts t f -> accepts (ts ++ [t]) (loc ++ [f]).
Proof.
  induction ts as [|x ts IH]; intros [|y loc] t f L A SA; try discriminate.
  - constructor; [exact SA|constructor].
  - inversion A; subst. cbn [app]. constructor; [assumption|]. apply IH; [injection L; auto|assumption|exact SA].
Qed.
Lemma key_accepts : forall k, step_accepts (part_token k) k.
Proof.
  intro k. unfold part_token. destruct (str_eqb_spec k (S_ "*")) as [->|A]; [exact Logic.I|].
  destruct (str_eqb_spec k (S_ "[*]")) as [->|B]; [left; reflexivity|]. destruct (parse_usize k) eqn:P; [exact P|reflexivity].
Qed.
Lemma down_accepts : forall r v loc x, down r v loc x -> fits v -> forall p names,
  accepts (path_tokens p) names -> length (path_tokens p) = length names ->
  accepts (path_tokens (fold_left extend r p)) (names ++ loc).
Proof.
  intros r v loc x D. induction D as [v|k m y r loc x I D IH|k m y r loc x I D IH|i l y r loc x E D IH|i l y r loc x E D IH];
    intros F p names A L; cbn [fold_left].
  - rewrite app_nil_r. exact A.
  - change (k :: loc) with ([k] ++ loc). rewrite app_assoc. apply IH.
    + inversion F as [? NO _| |? FM]; subst; [exfalso; eapply NO; reflexivity|]. rewrite Forall_forall in FM. exact (FM _ I).
    + cbn [extend]. rewrite join_token. unfold push. cbn [path_tokens]. apply accepts_snoc; [exact L|exact A|apply key_accepts].
    + cbn [extend]. rewrite join_token. unfold push. cbn [path_tokens]. rewrite !app_length, L. reflexivity.
  - change (k :: loc) with ([k] ++ loc). rewrite app_assoc. apply IH.
    + inversion F as [? NO _| |? FM]; subst; [exfalso; eapply NO; reflexivity|]. rewrite Forall_forall in FM. exact (FM _ I).
    + cbn [extend]. unfold push_star, push. cbn [path_tokens]. apply accepts_snoc; [exact L|exact A|exact Logic.I].
    + cbn [extend]. unfold push_star, push. cbn [path_tokens]. rewrite !app_length, L. reflexivity.
  - change (show_N i :: loc) with ([show_N i] ++ loc). rewrite app_assoc.
    inversion F as [? _ NA|? FL FA|]; subst; [exfalso; eapply NA; reflexivity|].
    assert (B : parse_usize (show_N i) = Some i).
    { apply parse_usize_show. pose proof (proj1 (nth_error_Some l (N.to_nat i))) as Q. rewrite E in Q. specialize (Q ltac:(discriminate)). unfold two64. lia. }
    apply IH.
    + rewrite Forall_forall in FA. exact (FA _ (nth_error_In _ _ E)).
    + cbn [extend]. unfold push_index, push. cbn [path_tokens]. apply accepts_snoc; [exact L|exact A|exact B].
    + cbn [extend]. unfold push_index, push. cbn [path_tokens]. rewrite !app_length, L. reflexivity.
  - change (show_N i :: loc) with ([show_N i] ++ loc). rewrite app_assoc.
    inversion F as [? _ NA|? FL FA|]; subst; [exfalso; eapply NA; reflexivity|].
    assert (B : parse_usize (show_N i) = Some i).
    { apply parse_usize_show. pose proof (proj1 (nth_error_Some l (N.to_nat i))) as Q. rewrite E in Q. specialize (Q ltac:(discriminate)). unfold two64. lia. }
    apply IH.
    + rewrite Forall_forall in FA. exact (FA _ (nth_error_In _ _ E)).
    + cbn [extend]. unfold push_star_index, push. cbn [path_tokens]. apply accepts_snoc; [exact L|exact A|right; eauto].
    + cbn [extend]. unfold push_star_index, push. cbn [path_tokens]. rewrite !app_length, L. reflexivity.
Qed.
(** The path a matcher's rules are registered under accepts the place of its example value. *)
Theorem C75_rules_apply_to_the_values : forall w junk v v' occs, reading w junk exactly [] v v' occs -> fits v' ->
  forall o, In o occs -> exists loc,
    down (o_route o) v' loc (o_value o) /\ accepts (path_tokens (path_of path_root (o_route o))) (S_ "$" :: loc).
Proof.
  intros w junk v v' occs R F o I. destruct (C75_matchers_lead_to_their_values _ _ _ _ _ _ _ R o I) as (s & loc & E & D).
  cbn [app] in E. rewrite E. exists loc. split; [exact D|].
  apply (down_accepts s v' loc (o_value o) D F path_root [S_ "$"]); [|reflexivity].
  constructor; [reflexivity|constructor].
Qed.

(** *** Panics come from reading a rule *)
Definition rule_panics (w : world) (v : json) : Prop :=
  exists ty m, within (JObj m) v /\ rule_create w (rj_for w (JObj m)) ty m = Panic.
Lemma bind_panic {A B E} (o : outcome A E) (f : A -> outcome B E) : bind o f = Panic ->
  o = Panic \/ exists a, o = Ok a /\ f a = Panic.
Proof. destruct o; cbn; intro H; [right; eauto|discriminate|auto]. Qed.
Lemma mapM_panic {A B E} (f : A -> outcome B E) : forall l, mapM f l = Panic -> exists x, In x l /\ f x = Panic.
Proof.
  induction l as [|a l IH]; cbn; [discriminate|]. fold (mapM f). intro H. apply bind_panic in H as [H|(b & _ & H)]; [eauto|].
  apply bind_panic in H as [H|(c & _ & H)]; [|discriminate]. destruct (IH H) as (x & I & X). eauto.
Qed.
Lemma create_panic : forall w ty m, create_rule w ty m = Panic -> rule_create w (rj_for w (JObj m)) ty m = Panic.
Proof. intros w ty m. unfold create_rule. destruct (rule_create w (rj_for w (JObj m)) ty m); (discriminate || reflexivity). Qed.
Lemma matchers_panic : forall w junk m, matchers_from_integration_json w junk m = Panic -> rule_panics w (JObj m).
Proof.
  intros w junk m H. unfold matchers_from_integration_json in H. destruct (obj_get matcher_type m) as [t|] eqn:T; [|discriminate].
  assert (Own : forall ty, create_rule w ty m = Panic -> rule_panics w (JObj m)).
  { intros ty C. exists ty, m. split; [constructor|apply create_panic, C]. }
  assert (Q : forall val, (if expr_test junk val then
     match parse_matcher_def junk w val with
     | Some d => bind (mapM (resolve_item m) (x_rules d)) (fun rules => Ok (rules, x_gen d))
     | None => Err tt
     end else bind (create_rule w val m) (fun r => Ok ([r], None))) = Panic -> rule_panics w (JObj m)).
  { intros val X. destruct (expr_test junk val).
    - destruct (parse_matcher_def junk w val) as [d|]; [|discriminate]. apply bind_panic in X as [X|(a & _ & X)]; [|discriminate].
      apply mapM_panic in X as (i & _ & X). destruct i as [a|n]; cbn in X; [discriminate|]. destruct (obj_get n m); discriminate.
    - apply bind_panic in X as [X|(a & _ & X)]; [|discriminate]. eapply Own, X. }
  specialize (Q (json_to_string w t)). destruct t; try (exact (Q H)).
  apply bind_panic in H as [H|(a & _ & H)]; [|discriminate]. apply mapM_panic in H as (e & I & X).
  unfold rule_of_element in X. destruct e as [| | | | |a]; try discriminate. destruct (obj_get matcher_type a); [|discriminate].
  apply create_panic in X. exists (json_to_string w j), a. split; [|exact X].
  apply obj_get_in in T. eapply within_field; [exact T|]. eapply within_elem; [exact I|constructor].
Qed.
Lemma panics_elem : forall w x l, In x l -> rule_panics w x -> rule_panics w (JArr l).
Proof. intros w x l I (ty & m & W & P). exists ty, m. split; [eapply within_elem; eassumption|exact P]. Qed.
Lemma panics_field : forall w k x m, In (k, x) m -> rule_panics w x -> rule_panics w (JObj m).
Proof. intros w k x m I (ty & m0 & W & P). exists ty, m0. split; [eapply within_field; eassumption|exact P]. Qed.
Lemma process_panics : forall w junk fuel to ta sa p v st, process w junk fuel to ta sa p v st = Panic -> rule_panics w v.
Proof.
  intros w junk. induction fuel as [|f IH]; intros to ta sa p v st H; [discriminate|].
  cbn [process] in H. destruct v as [| | | |l|m]; try discriminate.
  - unfold process_array in H. apply bind_panic in H as [H|(a & _ & H)]; [|discriminate].
    assert (Q : forall l0 i st0, (forall x, In x l0 -> In x l) -> items_in_order
        (fun i val => process w junk f sa false sa (if ta then push_star_index p else push_index p i) val) i l0 st0 = Panic -> rule_panics w (JArr l)).
    { induction l0 as [|x l0 IHl]; intros i st0 I X; [discriminate|]. cbn [items_in_order] in X.
      apply bind_panic in X as [X|(a & _ & X)]; [eapply panics_elem; [apply I; left; reflexivity|eapply IH, X]|].
      apply bind_panic in X as [X|(b & _ & X)]; [|discriminate]. eapply IHl; [|exact X]. intros y Iy. apply I. right. exact Iy. }
    eapply Q; [|exact H]. auto.
  - unfold process_object in H. destruct (obj_get matcher_type m) as [t|] eqn:T.
    + unfold process_matcher in H. apply bind_panic in H as [H|([res st1] & _ & H)]; [|cbn [fst snd] in H; destruct res as [[rules v]|e|]; discriminate].
      unfold matcher_result in H. destruct (is_array_contains t).
      * destruct (obj_get (S_ "variants") m) as [[| | | |l|]|] eqn:V; try discriminate.
        apply bind_panic in H as [H|(a & _ & H)]; [|discriminate]. apply obj_get_in in V. eapply panics_field; [exact V|].
        assert (Q : forall l0 i, (forall x, In x l0 -> In x l) -> process_variants (process w junk f) i l0 = Panic -> rule_panics w (JArr l)).
        { induction l0 as [|x l0 IHl]; intros i I X; [discriminate|]. cbn [process_variants] in X.
          apply bind_panic in X as [X|(a & _ & X)]; [eapply panics_elem; [apply I; left; reflexivity|eapply IH, X]|].
          apply bind_panic in X as [X|(b & _ & X)]; [|discriminate]. eapply IHl; [|exact X]. intros y Iy. apply I. right. exact Iy. }
        eapply Q; [|exact H]. auto.
      * destruct (matchers_from_integration_json w junk m) as [[rules g]|e|] eqn:M; try discriminate; [|eapply matchers_panic, M].
        apply bind_panic in H as [H|(a & _ & H)]; [|discriminate]. destruct (obj_get (S_ "value") m) as [inner|] eqn:V; [|discriminate].
        apply obj_get_in in V. eapply panics_field; [exact V|]. eapply IH, H.
    + apply bind_panic in H as [H|(a & _ & H)]; [|discriminate].
      assert (Q : forall m0 st0, (forall x, In x m0 -> In x m) -> entries_in_order
          (fun key val => process w junk f false false false (if to then join p (S_ "*") else join p key) val)
          (filter (fun kv => negb (is_pact_key (fst kv))) m0) st0 = Panic -> rule_panics w (JObj m)).
      { induction m0 as [|[k x] m0 IHl]; intros st0 I X; [discriminate|]. cbn [filter fst] in X.
        assert (I' : forall y, In y m0 -> In y m) by (intros y Iy; apply I; right; exact Iy).
        destruct (is_pact_key k); cbn [negb] in X; [eapply IHl; eassumption|]. cbn [entries_in_order] in X.
        apply bind_panic in X as [X|(a & _ & X)]; [eapply panics_field; [apply I; left; reflexivity|eapply IH, X]|].
        apply bind_panic in X as [X|(b & _ & X)]; [|discriminate]. eapply IHl; eassumption. }
      eapply Q; [|exact H]. auto.
Qed.
(** Processing a document always ends; it panics only if an object of the document makes reading a rule panic. *)
Theorem C75_outcome : forall w junk v st,
  (exists v' st', process_json_value w junk v st = Ok (v', st')) \/
  (process_json_value w junk v st = Panic /\ exists ty m, within (JObj m) v /\ rule_create w (rj_for w (JObj m)) ty m = Panic).
Proof.
  intros w junk v st. pose proof (C75_total w junk v st) as T. destruct (process_json_value w junk v st) as [[v' st']|e|] eqn:E.
  - left. eauto.
  - destruct e. contradiction.
  - right. split; [reflexivity|]. eapply process_panics, E.
Qed.

(** ** Examples *)
Definition example_document : json :=
  JObj [(S_ "id", JNum (PosInt 1));
        (S_ "items", JObj [(S_ "min", JNum (PosInt 1)); (S_ "pact:matcher:type", JStr (S_ "type"));
           (S_ "value", JArr [JObj [(S_ "code", JObj [(S_ "pact:generator:type", JStr (S_ "RandomInt"));
                                                      (S_ "pact:matcher:type", JStr (S_ "regex"));
                                                      (S_ "regex", JStr (S_ "\d+")); (S_ "value", JStr (S_ "12"))])]])]);
        (S_ "wrong", JObj [(S_ "pact:matcher:type", JStr (S_ "none")); (S_ "value", JStr (S_ "x"))])].
Definition body_store : store := mkStore (mkCat CBody []) [].
Example C75_example junk w : exists st,
  process_json_value w junk example_document body_store =
    Ok (JObj [(S_ "id", JNum (PosInt 1)); (S_ "items", JArr [JObj [(S_ "code", JStr (S_ "12"))]]); (S_ "wrong", JNull)], st) /\
  map (fun e => (path_expr (fst e), rl_rules (snd e))) (cat_rules (st_rules st)) =
    [(S_ "$.items[*].code", [XRule (RRegex (S_ "\d+"))]); (S_ "$.items", [XRule (RMinType 1)])] /\
  option_map (map (fun e => (path_expr (fst e), snd e))) (cats_get GcBody (st_gens st)) =
    Some [(S_ "$.items[*].code", GRandomInt 0 10)].
Proof. eexists. split; [vm_compute; reflexivity|]. split; vm_compute; reflexivity. Qed.
(** A matcher in a matcher: the rules of both are kept, the inner ones first. *)
Example C75_example_nested junk w : exists st,
  process_json_value w junk
    (JObj [(S_ "pact:matcher:type", JStr (S_ "type"));
           (S_ "value", JObj [(S_ "pact:matcher:type", JStr (S_ "number")); (S_ "value", JNum (PosInt 3))])]) body_store
  = Ok (JNum (PosInt 3), st) /\
  map (fun e => (path_expr (fst e), rl_rules (snd e))) (cat_rules (st_rules st)) = [(S_ "$", [XRule RNumber; XRule RType])].
Proof. eexists. split; vm_compute; reflexivity. Qed.
(** A rule for the values of a map covers every key. *)
Example C75_example_values junk w : exists st,
  process_json_value w junk
    (JObj [(S_ "pact:matcher:type", JStr (S_ "values"));
           (S_ "value", JObj [(S_ "a", JObj [(S_ "pact:matcher:type", JStr (S_ "number")); (S_ "value", JNum (PosInt 3))])])]) body_store
  = Ok (JObj [(S_ "a", JNum (PosInt 3))], st) /\
  map (fun e => (path_expr (fst e), rl_rules (snd e))) (cat_rules (st_rules st)) = [(S_ "$.*", [XRule RNumber]); (S_ "$", [XRule RValues])].
Proof. eexists. split; vm_compute; reflexivity. Qed.
(** Keys that look like indices are taken as indices. *)
Example C75_why_numeric_keys junk w : exists st,
  process_json_value w junk
    (JObj [(S_ "12", JObj [(S_ "pact:matcher:type", JStr (S_ "number")); (S_ "value", JNum (PosInt 3))])]) body_store
  = Ok (JObj [(S_ "12", JNum (PosInt 3))], st) /\
  map (fun e => (path_expr (fst e), rl_rules (snd e))) (cat_rules (st_rules st)) = [(S_ "$[12]", [XRule RNumber])].
Proof. eexists. split; vm_compute; reflexivity. Qed.
